(** The files in /repo/bin/test-files and /repo/bin/reader-tests, byte by byte, in hexadecimal. *)
From Verif Require Import Base.
Import List ListNotations.
Open Scope string_scope.

Definition digit (c : ascii) : N :=
  let n := N_of_ascii c in if (n <? 58)%N then (n - 48)%N else (n - 87)%N.
Fixpoint unhex (s : string) : string :=
  match s with
  | String a (String b r) => String (ascii_of_N (16 * digit a + digit b)) (unhex r)
  | _ => ""
  end.
Definition join (l : list string) : string := fold_right append "" l.

(** bin/test-files/_i_ *)
Definition file_i_ : string := unhex (join [
  "636f7264610100000080c562000000000001c0c20300a3226e65742e636f7264613a6b566d7a5a36355638552f53592b";
  "6f4953446c4437673d3dc0030154450080c562000000000002c07e01c07b010080c562000000000005c06e05a1186e65";
  "742e636f7264612e626c6f627772697465722e5f695f40450080c562000000000003c02602a3226e65742e636f726461";
  "3a6b566d7a5a36355638552f53592b6f4953446c4437673d3d40c01d010080c562000000000004c01007a10161a10369";
  "6e7445a101304041420080c562000000000009c10100"]).

(** bin/test-files/_ii_ *)
Definition file_ii_ : string := unhex (join [
  "636f7264610100000080c562000000000001c0e10300a3226e65742e636f7264613a4244522f6d74615138755a773858";
  "76425643656255513d3dc00502540154020080c562000000000002c09b01c098010080c562000000000005c08b05a119";
  "6e65742e636f7264612e626c6f627772697465722e5f69695f40450080c562000000000003c02602a3226e65742e636f";
  "7264613a4244522f6d74615138755a77385876425643656255513d3d40c039020080c562000000000004c01007a10161";
  "a103696e7445a101304041420080c562000000000004c01007a10162a103696e7445a101304041420080c56200000000";
  "0009c10100"]).

(** bin/test-files/_iii_ *)
Definition file_iii_ : string := unhex (join [
  "636f7264610100000080c562000000000001d0000001030000000300a3226e65742e636f7264613a767a5668374c3278";
  "716961766d2f423155612b7248413d3dc00703540a541e54140080c562000000000002c0b801c0b5010080c562000000";
  "000005c0a805a11a6e65742e636f7264612e626c6f627772697465722e5f6969695f40450080c562000000000003c026";
  "02a3226e65742e636f7264613a767a5668374c3278716961766d2f423155612b7248413d3d40c055030080c562000000";
  "000004c01007a10161a103696e7445a101304041420080c562000000000004c01007a10162a103696e7445a101304041";
  "420080c562000000000004c01007a10163a103696e7445a101304041420080c562000000000009c10100"]).

(** bin/test-files/__i__i__ *)
Definition file__i__i__ : string := unhex (join [
  "636f7264610100000080c562000000000001d0000001ea0000000300a3226e65742e636f7264613a4431664c56314d35";
  "5a4e4e446c5933717342585650413d3dc05b0200a3226e65742e636f7264613a6b566d7a5a36355638552f53592b6f49";
  "53446c4437673d3dc0060171000003e800a3226e65742e636f7264613a6b566d7a5a36355638552f53592b6f4953446c";
  "4437673d3dc0060171000000c80080c562000000000002d00000014800000001d00000013f000000020080c562000000";
  "000005c0b505a11d6e65742e636f7264612e626c6f627772697465722e5f5f695f5f695f5f40450080c5620000000000";
  "03c02602a3226e65742e636f7264613a4431664c56314d355a4e4e446c5933717342585650413d3d40c05f020080c562";
  "000000000004c02307a10161a1186e65742e636f7264612e626c6f627772697465722e5f695f45404041420080c56200";
  "0000000004c02307a10162a1186e65742e636f7264612e626c6f627772697465722e5f695f45404041420080c5620000";
  "00000005c06e05a1186e65742e636f7264612e626c6f627772697465722e5f695f40450080c562000000000003c02602";
  "a3226e65742e636f7264613a6b566d7a5a36355638552f53592b6f4953446c4437673d3d40c01d010080c56200000000";
  "0004c01007a10161a103696e7445a101304041420080c562000000000009c10100"]).

(** bin/test-files/_l_ *)
Definition file_l_ : string := unhex (join [
  "636f7264610100000080c562000000000001c0ca0300a3226e65742e636f7264613a7634544c414d3052344a4b4a3433";
  "6673394b54565a413d3dc00a0181000000174876e8000080c562000000000002c07f01c07c010080c562000000000005";
  "c06f05a1186e65742e636f7264612e626c6f627772697465722e5f6c5f40450080c562000000000003c02602a3226e65";
  "742e636f7264613a7634544c414d3052344a4b4a34336673394b54565a413d3d40c01e010080c562000000000004c011";
  "07a10178a1046c6f6e6745a101304041420080c562000000000009c10100"]).

(** bin/test-files/_Oi_ *)
Definition file_Oi_ : string := unhex (join [
  "636f7264610100000080c562000000000001c0c10300a3226e65742e636f7264613a4e504c343961785946647069592b";
  "677665394b5052413d3dc0030154010080c562000000000002c07d01c07a010080c562000000000005c06d05a1196e65";
  "742e636f7264612e626c6f627772697465722e5f4f695f40450080c562000000000003c02602a3226e65742e636f7264";
  "613a4e504c343961785946647069592b677665394b5052413d3d40c01b010080c562000000000004c00e07a10161a103";
  "696e7445404041420080c562000000000009c10100"]).

(** bin/test-files/_Ai_ *)
Definition file_Ai_ : string := unhex (join [
  "636f7264610100000080c562000000000001d0000001550000000300a3226e65742e636f7264613a413361495a514757";
  "737061615843736a4e392b4b56513d3dc0350100a3226e65742e636f7264613a4d2f654374486c6a49556b6135313636";
  "6354484b52773d3dc00d065401540254035404540554060080c562000000000002c0dc01c0d9020080c5620000000000";
  "05c06f05a1196e65742e636f7264612e626c6f627772697465722e5f41695f40450080c562000000000003c02602a322";
  "6e65742e636f7264613a413361495a514757737061615843736a4e392b4b56513d3d40c01d010080c562000000000004";
  "c01007a1017aa105696e745b5d45404041420080c562000000000006c05106a1136a6176612e6c616e672e496e746567";
  "65725b5d4045a1046c6973740080c562000000000003c02602a3226e65742e636f7264613a4d2f654374486c6a49556b";
  "61353136366354484b52773d3d40450080c562000000000009c10100"]).

(** bin/test-files/_Li_ *)
Definition file_Li_ : string := unhex (join [
  "636f7264610100000080c562000000000001d0000001680000000300a3226e65742e636f7264613a484f5455622f586e";
  "73337174583751396a7574325a413d3dc0350100a3226e65742e636f7264613a364e62746f644d6f5476526463786b48";
  "6b774d7238513d3dc00d065401540254035404540554060080c562000000000002c0ef01c0ec020080c5620000000000";
  "05c08205a1196e65742e636f7264612e626c6f627772697465722e5f4c695f40450080c562000000000003c02602a322";
  "6e65742e636f7264613a484f5455622f586e73337174583751396a7574325a413d3d40c030010080c562000000000004";
  "c02307a10161a1012ac01601a1136a6176612e7574696c2e4c6973743c696e743e404041420080c562000000000006c0";
  "5106a1136a6176612e7574696c2e4c6973743c696e743e4045a1046c6973740080c562000000000003c02602a3226e65";
  "742e636f7264613a364e62746f644d6f5476526463786b486b774d7238513d3d40450080c562000000000009c10100"]).

(** bin/test-files/_L_i__ *)
Definition file_L_i__ : string := unhex (join [
  "636f7264610100000080c562000000000001d0000002900000000300a3226e65742e636f7264613a566f366e464b4944";
  "6569445942304f626a2b714d64513d3dc0a70100a3226e65742e636f7264613a4f594172636b56597749457853367154";
  "374f505356673d3dc07f0300a3226e65742e636f7264613a6b566d7a5a36355638552f53592b6f4953446c4437673d3d";
  "c00301540100a3226e65742e636f7264613a6b566d7a5a36355638552f53592b6f4953446c4437673d3dc00301540200";
  "a3226e65742e636f7264613a6b566d7a5a36355638552f53592b6f4953446c4437673d3dc0030154030080c562000000";
  "000002d0000001a200000001d000000199000000030080c562000000000005c09d05a11b6e65742e636f7264612e626c";
  "6f627772697465722e5f4c5f695f5f40450080c562000000000003c02602a3226e65742e636f7264613a566f366e464b";
  "49446569445942304f626a2b714d64513d3d40c049010080c562000000000004c03c07a1056c69737479a1012ac02b01";
  "a1286a6176612e7574696c2e4c6973743c6e65742e636f7264612e626c6f627772697465722e5f695f3e404041420080";
  "c562000000000006c06606a1286a6176612e7574696c2e4c6973743c6e65742e636f7264612e626c6f62777269746572";
  "2e5f695f3e4045a1046c6973740080c562000000000003c02602a3226e65742e636f7264613a4f594172636b56597749";
  "457853367154374f505356673d3d40450080c562000000000005c06e05a1186e65742e636f7264612e626c6f62777269";
  "7465722e5f695f40450080c562000000000003c02602a3226e65742e636f7264613a6b566d7a5a36355638552f53592b";
  "6f4953446c4437673d3d40c01d010080c562000000000004c01007a10161a103696e7445a101304041420080c5620000";
  "00000009c10100"]).

(** bin/test-files/_Le_ *)
Definition file_Le_ : string := unhex (join [
  "636f7264610100000080c562000000000001d0000002b40000000300a3226e65742e636f7264613a68626e3930655744";
  "374472436e7578594457554d70673d3dc0b00100a3226e65742e636f7264613a6b68574c4b6e54464c4e644946437550";
  "6f564b566f673d3dc0880300a3226e65742e636f7264613a4a55766f4e4c7a63425971794446357141534c6434513d3d";
  "c00602a10141540000a3226e65742e636f7264613a4a55766f4e4c7a63425971794446357141534c6434513d3dc00602";
  "a10142540100a3226e65742e636f7264613a4a55766f4e4c7a63425971794446357141534c6434513d3dc00602a10143";
  "54020080c562000000000002d0000001bd00000001d0000001b4000000030080c562000000000005c09905a1196e6574";
  "2e636f7264612e626c6f627772697465722e5f4c655f40450080c562000000000003c02602a3226e65742e636f726461";
  "3a68626e3930655744374472436e7578594457554d70673d3d40c047010080c562000000000004c03a07a1056c697374";
  "79a1012ac02901a1266a6176612e7574696c2e4c6973743c6e65742e636f7264612e626c6f627772697465722e453e40";
  "4041420080c562000000000006c06406a1266a6176612e7574696c2e4c6973743c6e65742e636f7264612e626c6f6277";
  "72697465722e453e4045a1046c6973740080c562000000000003c02602a3226e65742e636f7264613a6b68574c4b6e54";
  "464c4e6449464375506f564b566f673d3d40450080c562000000000006c08f06a1166e65742e636f7264612e626c6f62";
  "7772697465722e454045a1046c6973740080c562000000000003c02602a3226e65742e636f7264613a4a55766f4e4c7a";
  "63425971794446357141534c6434513d3d40c03a030080c562000000000007c00702a10141a101300080c56200000000";
  "0007c00702a10142a101310080c562000000000007c00702a10143a101320080c562000000000009c10100"]).

(** bin/test-files/_Le_2 *)
Definition file_Le_2 : string := unhex (join [
  "636f7264610100000080c562000000000001d0000002cb0000000300a3226e65742e636f7264613a68626e3930655744";
  "374472436e7578594457554d70673d3dc0c70100a3226e65742e636f7264613a6b68574c4b6e54464c4e644946437550";
  "6f564b566f673d3dc09f0500a3226e65742e636f7264613a4a55766f4e4c7a63425971794446357141534c6434513d3d";
  "c00602a10141540000a3226e65742e636f7264613a4a55766f4e4c7a63425971794446357141534c6434513d3dc00602";
  "a10142540100a3226e65742e636f7264613a4a55766f4e4c7a63425971794446357141534c6434513d3dc00602a10143";
  "54020080c56200000000000852010080c562000000000008430080c562000000000002d0000001bd00000001d0000001";
  "b4000000030080c562000000000005c09905a1196e65742e636f7264612e626c6f627772697465722e5f4c655f404500";
  "80c562000000000003c02602a3226e65742e636f7264613a68626e3930655744374472436e7578594457554d70673d3d";
  "40c047010080c562000000000004c03a07a1056c69737479a1012ac02901a1266a6176612e7574696c2e4c6973743c6e";
  "65742e636f7264612e626c6f627772697465722e453e404041420080c562000000000006c06406a1266a6176612e7574";
  "696c2e4c6973743c6e65742e636f7264612e626c6f627772697465722e453e4045a1046c6973740080c5620000000000";
  "03c02602a3226e65742e636f7264613a6b68574c4b6e54464c4e6449464375506f564b566f673d3d40450080c5620000";
  "00000006c08f06a1166e65742e636f7264612e626c6f627772697465722e454045a1046c6973740080c5620000000000";
  "03c02602a3226e65742e636f7264613a4a55766f4e4c7a63425971794446357141534c6434513d3d40c03a030080c562";
  "000000000007c00702a10141a101300080c562000000000007c00702a10142a101310080c562000000000007c00702a1";
  "0143a101320080c562000000000009c10100"]).

(** bin/test-files/_Mis_ *)
Definition file_Mis_ : string := unhex (join [
  "636f7264610100000080c562000000000001d0000001800000000300a3226e65742e636f7264613a63722f65344d734d";
  "62673562344a426d304651725a513d3dc03f0100a3226e65742e636f7264613a4d446d31663472787949385557334541";
  "37464b4862673d3dc117065401a10374776f5403a104666f75725405a1037369780080c562000000000002c0fd01c0fa";
  "020080c562000000000005c08a05a11a6e65742e636f7264612e626c6f627772697465722e5f4d69735f40450080c562";
  "000000000003c02602a3226e65742e636f7264613a63722f65344d734d62673562344a426d304651725a513d3d40c037";
  "010080c562000000000004c02a07a10161a1012ac01d01a11a6a6176612e7574696c2e4d61703c696e742c2073747269";
  "6e673e404041420080c562000000000006c05706a11a6a6176612e7574696c2e4d61703c696e742c20737472696e673e";
  "4045a1036d61700080c562000000000003c02602a3226e65742e636f7264613a4d446d31663472787949385557334541";
  "37464b4862673d3d40450080c562000000000009c10100"]).

(** bin/test-files/_MiLs_ *)
Definition file_MiLs_ : string := unhex (join [
  "636f7264610100000080c562000000000001d00000028a0000000300a3226e65742e636f7264613a376744384d323830";
  "4d6d77684336495665634e5555673d3dc0bc0100a3226e65742e636f7264613a394e752b3276385a626968706a78705a";
  "557362717a773d3dc19406540100a3226e65742e636f7264613a70446141776b6a632b51516f43584e6b634f78654177";
  "3d3dc01303a10374776fa1057468726565a104666f7572540500a3226e65742e636f7264613a70446141776b6a632b51";
  "516f43584e6b634f786541773d3dc00601a103736978540700a3226e65742e636f7264613a70446141776b6a632b5151";
  "6f43584e6b634f786541773d3d450080c562000000000002d00000018700000001d00000017e000000030080c5620000";
  "00000005c09b05a11b6e65742e636f7264612e626c6f627772697465722e5f4d694c735f40450080c562000000000003";
  "c02602a3226e65742e636f7264613a376744384d3238304d6d77684336495665634e5555673d3d40c047010080c56200";
  "0000000004c03a07a10161a1012ac02d01a12a6a6176612e7574696c2e4d61703c696e742c206a6176612e7574696c2e";
  "4c6973743c737472696e673e3e404041420080c562000000000006c06706a12a6a6176612e7574696c2e4d61703c696e";
  "742c206a6176612e7574696c2e4c6973743c737472696e673e3e4045a1036d61700080c562000000000003c02602a322";
  "6e65742e636f7264613a394e752b3276385a626968706a78705a557362717a773d3d40450080c562000000000006c054";
  "06a1166a6176612e7574696c2e4c6973743c737472696e673e4045a1046c6973740080c562000000000003c02602a322";
  "6e65742e636f7264613a70446141776b6a632b51516f43584e6b634f786541773d3d40450080c562000000000009c101";
  "00"]).

(** bin/test-files/_Mi_is__ *)
Definition file_Mi_is__ : string := unhex (join [
  "636f7264610100000080c562000000000001d0000002cd0000000300a3226e65742e636f7264613a4a73334730445a4b";
  "65656e74534336545867316b7a773d3dc0bf0100a3226e65742e636f7264613a5a714d534257304b685a746b71734479";
  "3254327276413d3dc19706540100a3226e65742e636f7264613a7a5477455032464c57324c6a566d4b57556f727a2b77";
  "3d3dc00a025402a1057468726565540400a3226e65742e636f7264613a7a5477455032464c57324c6a566d4b57556f72";
  "7a2b773d3dc008025405a103736978540700a3226e65742e636f7264613a7a5477455032464c57324c6a566d4b57556f";
  "727a2b773d3dc009025408a1046e696e650080c562000000000002d0000001c700000001d0000001be000000030080c5";
  "62000000000005c0a005a11d6e65742e636f7264612e626c6f627772697465722e5f4d695f69735f5f40450080c56200";
  "0000000003c02602a3226e65742e636f7264613a4a73334730445a4b65656e74534336545867316b7a773d3d40c04a01";
  "0080c562000000000004c03d07a10161a1012ac03001a12d6a6176612e7574696c2e4d61703c696e742c206e65742e63";
  "6f7264612e626c6f627772697465722e5f69735f3e404041420080c562000000000006c06a06a12d6a6176612e757469";
  "6c2e4d61703c696e742c206e65742e636f7264612e626c6f627772697465722e5f69735f3e4045a1036d61700080c562";
  "000000000003c02602a3226e65742e636f7264613a5a714d534257304b685a746b717344793254327276413d3d404500";
  "80c562000000000005c08c05a1196e65742e636f7264612e626c6f627772697465722e5f69735f40450080c562000000";
  "000003c02602a3226e65742e636f7264613a7a5477455032464c57324c6a566d4b57556f727a2b773d3d40c03a020080";
  "c562000000000004c01007a10161a103696e7445a101304041420080c562000000000004c01107a10162a10673747269";
  "6e6745404041420080c562000000000009c10100"]).

(** bin/test-files/_Pls_ *)
Definition file_Pls_ : string := unhex (join [
  "636f7264610100000080c562000000000001d00000023c0000000300a3226e65742e636f7264613a4f49684144732f45";
  "704173422f514652576c38304e413d3dc0300100a3226e65742e636f7264613a52482b7350723852506337736872414c";
  "306f6b3038673d3dc008025501a10374776f0080c562000000000002d0000001c500000001d0000001bc000000030080";
  "c562000000000005c08405a11a6e65742e636f7264612e626c6f627772697465722e5f506c735f40450080c562000000";
  "000003c02602a3226e65742e636f7264613a4f49684144732f45704173422f514652576c38304e413d3d40c031010080";
  "c562000000000004c02407a10161a1196b6f746c696e2e506169723c6c6f6e672c20737472696e673e45404041420080";
  "c562000000000005c0ac05a1196b6f746c696e2e506169723c6c6f6e672c20737472696e673e40c01701a1146a617661";
  "2e696f2e53657269616c697a61626c650080c562000000000003c02602a3226e65742e636f7264613a52482b73507238";
  "52506337736872414c306f6b3038673d3d40c042020080c562000000000004c01307a1056669727374a1046c6f6e6745";
  "404041420080c562000000000004c01607a1067365636f6e64a106737472696e6745404041420080c562000000000005";
  "c06405a1146a6176612e696f2e53657269616c697a61626c6540c01701a1146a6176612e696f2e53657269616c697a61";
  "626c650080c562000000000003c02602a3226e65742e636f7264613a6331336448377a4b75574e47782b724d35646c71";
  "6e413d3d40450080c562000000000009c10100"]).

(** bin/test-files/_e_ *)
Definition file_e_ : string := unhex (join [
  "636f7264610100000080c562000000000001d0000001a80000000300a3226e65742e636f7264613a7941485250426e6f";
  "7233572b57664e50392b467a57673d3dc02e0100a3226e65742e636f7264613a4a55766f4e4c7a634259717944463571";
  "41534c6434513d3dc00602a1014154000080c562000000000002d00000013300000001d00000012a000000020080c562";
  "000000000005c07f05a1186e65742e636f7264612e626c6f627772697465722e5f655f40450080c562000000000003c0";
  "2602a3226e65742e636f7264613a7941485250426e6f7233572b57664e50392b467a57673d3d40c02e010080c5620000";
  "00000004c02107a10165a1166e65742e636f7264612e626c6f627772697465722e4545404041420080c5620000000000";
  "06c08f06a1166e65742e636f7264612e626c6f627772697465722e454045a1046c6973740080c562000000000003c026";
  "02a3226e65742e636f7264613a4a55766f4e4c7a63425971794446357141534c6434513d3d40c03a030080c562000000";
  "000007c00702a10141a101300080c562000000000007c00702a10142a101310080c562000000000007c00702a10143a1";
  "01320080c562000000000009c10100"]).

(** bin/test-files/_i_is__ *)
Definition file_i_is__ : string := unhex (join [
  "636f7264610100000080c562000000000001d0000001ce0000000300a3226e65742e636f7264613a61764d2b37433556";
  "51507a747170794237666b6178673d3dc03402540100a3226e65742e636f7264613a7a5477455032464c57324c6a566d";
  "4b57556f727a2b773d3dc00a025402a10574687265650080c562000000000002d00000015300000001d00000014a0000";
  "00020080c562000000000005c0a205a11c6e65742e636f7264612e626c6f627772697465722e5f695f69735f5f404500";
  "80c562000000000003c02602a3226e65742e636f7264613a61764d2b3743355651507a747170794237666b6178673d3d";
  "40c04d020080c562000000000004c01007a10161a103696e7445a101304041420080c562000000000004c02407a10162";
  "a1196e65742e636f7264612e626c6f627772697465722e5f69735f45404041420080c562000000000005c08c05a1196e";
  "65742e636f7264612e626c6f627772697465722e5f69735f40450080c562000000000003c02602a3226e65742e636f72";
  "64613a7a5477455032464c57324c6a566d4b57556f727a2b773d3d40c03a020080c562000000000004c01007a10161a1";
  "03696e7445a101304041420080c562000000000004c01107a10162a106737472696e6745404041420080c56200000000";
  "0009c10100"]).

(** bin/test-files/_Ci_ *)
Definition file_Ci_ : string := unhex (join [
  "636f7264610100000080c562000000000001d0000001430000000300a3226e65742e636f7264613a4c4e6e4f325a6f4d";
  "6e6d496930457a636448484946673d3dc02f0100a3226e65742e636f7264613a47377833676149644e50693671614d4a";
  "6345323837513d3dc007035401540254030080c562000000000002c0d001c0cd020080c562000000000005c07005a119";
  "6e65742e636f7264612e626c6f627772697465722e5f43695f40450080c562000000000003c02602a3226e65742e636f";
  "7264613a4c4e6e4f325a6f4d6e6d496930457a636448484946673d3d40c01e010080c562000000000004c01107a1017a";
  "a106696e745b705d45404041420080c562000000000006c04406a106696e745b705d4045a1046c6973740080c5620000";
  "00000003c02602a3226e65742e636f7264613a47377833676149644e50693671614d4a6345323837513d3d40450080c5";
  "62000000000009c10100"]).

(** bin/test-files/__i_LMis_l__ *)
Definition file__i_LMis_l__ : string := unhex (join [
  "636f7264610100000080c562000000000001d0000004280000000300a3226e65742e636f7264613a687465796f7a5558";
  "2b6c54644975336c3271656f73673d3dc0fd0300a3226e65742e636f7264613a4833415a4c63696659512f7957557673";
  "4c512b6447673d3dc0770200a3226e65742e636f7264613a4d446d3166347278794938555733454137464b4862673d3d";
  "c117065401a10374776f5403a104666f75725405a10373697800a3226e65742e636f7264613a4d446d31663472787949";
  "38555733454137464b4862673d3dc111045407a10565696768745409a10374656e00a3226e65742e636f7264613a7634";
  "544c414d3052344a4b4a34336673394b54565a413d3dc00a018100000000000f424000a3226e65742e636f7264613a6b";
  "566d7a5a36355638552f53592b6f4953446c4437673d3dc00601710000029a0080c562000000000002d0000002e40000";
  "0001d0000002db000000050080c562000000000005c0ff05a1216e65742e636f7264612e626c6f627772697465722e5f";
  "5f695f4c4d69735f6c5f5f40450080c562000000000003c02602a3226e65742e636f7264613a687465796f7a55582b6c";
  "54644975336c3271656f73673d3d40c0a5030080c562000000000004c03a07a10178a1012ac02d01a12a6a6176612e75";
  "74696c2e4c6973743c6a6176612e7574696c2e4d61703c696e742c20737472696e673e3e404041420080c56200000000";
  "0004c02307a10179a1186e65742e636f7264612e626c6f627772697465722e5f6c5f45404041420080c5620000000000";
  "04c02307a1017aa1186e65742e636f7264612e626c6f627772697465722e5f695f45404041420080c562000000000006";
  "c06806a12a6a6176612e7574696c2e4c6973743c6a6176612e7574696c2e4d61703c696e742c20737472696e673e3e40";
  "45a1046c6973740080c562000000000003c02602a3226e65742e636f7264613a4833415a4c63696659512f7957557673";
  "4c512b6447673d3d40450080c562000000000006c05706a11a6a6176612e7574696c2e4d61703c696e742c2073747269";
  "6e673e4045a1036d61700080c562000000000003c02602a3226e65742e636f7264613a4d446d31663472787949385557";
  "33454137464b4862673d3d40450080c562000000000005c06f05a1186e65742e636f7264612e626c6f62777269746572";
  "2e5f6c5f40450080c562000000000003c02602a3226e65742e636f7264613a7634544c414d3052344a4b4a3433667339";
  "4b54565a413d3d40c01e010080c562000000000004c01107a10178a1046c6f6e6745a101304041420080c56200000000";
  "0005c06e05a1186e65742e636f7264612e626c6f627772697465722e5f695f40450080c562000000000003c02602a322";
  "6e65742e636f7264613a6b566d7a5a36355638552f53592b6f4953446c4437673d3d40c01d010080c562000000000004";
  "c01007a10161a103696e7445a101304041420080c562000000000009c10100"]).

(** bin/test-files/_ALd_ *)
Definition file_ALd_ : string := unhex (join [
  "636f7264610100000080c562000000000001d0000002720000000300a3226e65742e636f7264613a36684e366c397971";
  "5943442f3647437a6642353768773d3dc0c30100a3226e65742e636f7264613a4c6e704c5676356e3061796843384e6c";
  "4d4a4e5834413d3dc09b0300a3226e65742e636f7264613a54596a66793635786c5a6756587477465262575542513d3d";
  "c01c0382402433333333333382402666666666666682402899999999999a00a3226e65742e636f7264613a54596a6679";
  "3635786c5a6756587477465262575542513d3d4500a3226e65742e636f7264613a54596a66793635786c5a6756587477";
  "465262575542513d3dc00a0182402acccccccccccd0080c562000000000002d00000016800000001d00000015f000000";
  "030080c562000000000005c08305a11a6e65742e636f7264612e626c6f627772697465722e5f414c645f40450080c562";
  "000000000003c02602a3226e65742e636f7264613a36684e366c3979715943442f3647437a6642353768773d3d40c030";
  "010080c562000000000004c02307a10161a1186a6176612e7574696c2e4c6973743c646f75626c653e5b5d4540404142";
  "0080c562000000000006c06006a1226a6176612e7574696c2e4c6973743c6a6176612e6c616e672e446f75626c653e5b";
  "5d4045a1046c6973740080c562000000000003c02602a3226e65742e636f7264613a4c6e704c5676356e306179684338";
  "4e6c4d4a4e5834413d3d40450080c562000000000006c05406a1166a6176612e7574696c2e4c6973743c646f75626c65";
  "3e4045a1046c6973740080c562000000000003c02602a3226e65742e636f7264613a54596a66793635786c5a67565874";
  "77465262575542513d3d40450080c562000000000009c10100"]).

(** bin/test-files/_p_i__.null *)
Definition file_p_i___null : string := unhex (join [
  "636f7264610100000080c562000000000001d0000001600000000300a3226e65742e636f7264613a73675a56626e5943";
  "454a4a33364d344a596558564b673d3dc00201400080c562000000000002d00000011700000001d00000010e00000002";
  "0080c562000000000005c08405a11b6e65742e636f7264612e626c6f627772697465722e5f705f695f5f40450080c562";
  "000000000003c02602a3226e65742e636f7264613a73675a56626e5943454a4a33364d344a596558564b673d3d40c030";
  "010080c562000000000004c02307a10161a1186e65742e636f7264612e626c6f627772697465722e5f695f4540404242";
  "0080c562000000000005c06e05a1186e65742e636f7264612e626c6f627772697465722e5f695f40450080c562000000";
  "000003c02602a3226e65742e636f7264613a6b566d7a5a36355638552f53592b6f4953446c4437673d3d40c01d010080";
  "c562000000000004c01007a10161a103696e7445a101304041420080c562000000000009c10100"]).

(** bin/test-files/_p_i__.notnull *)
Definition file_p_i___notnull : string := unhex (join [
  "636f7264610100000080c562000000000001d0000001890000000300a3226e65742e636f7264613a73675a56626e5943";
  "454a4a33364d344a596558564b673d3dc02b0100a3226e65742e636f7264613a6b566d7a5a36355638552f53592b6f49";
  "53446c4437673d3dc0030154640080c562000000000002d00000011700000001d00000010e000000020080c562000000";
  "000005c08405a11b6e65742e636f7264612e626c6f627772697465722e5f705f695f5f40450080c562000000000003c0";
  "2602a3226e65742e636f7264613a73675a56626e5943454a4a33364d344a596558564b673d3d40c030010080c5620000";
  "00000004c02307a10161a1186e65742e636f7264612e626c6f627772697465722e5f695f45404042420080c562000000";
  "000005c06e05a1186e65742e636f7264612e626c6f627772697465722e5f695f40450080c562000000000003c02602a3";
  "226e65742e636f7264613a6b566d7a5a36355638552f53592b6f4953446c4437673d3d40c01d010080c5620000000000";
  "04c01007a10161a103696e7445a101304041420080c562000000000009c10100"]).

(** bin/test-files/_Ls_ *)
Definition file_Ls_ : string := unhex (join [
  "636f7264610100000080c562000000000001d0000001790000000300a3226e65742e636f7264613a6579586a42482f44";
  "3171536b2b4a42553374674677513d3dc0400100a3226e65742e636f7264613a70446141776b6a632b51516f43584e6b";
  "634f786541773d3dc01803a107476f6f64627965a105637275656ca105776f726c640080c562000000000002c0f501c0";
  "f2020080c562000000000005c08505a1196e65742e636f7264612e626c6f627772697465722e5f4c735f40450080c562";
  "000000000003c02602a3226e65742e636f7264613a6579586a42482f443171536b2b4a42553374674677513d3d40c033";
  "010080c562000000000004c02607a10161a1012ac01901a1166a6176612e7574696c2e4c6973743c737472696e673e40";
  "4041420080c562000000000006c05406a1166a6176612e7574696c2e4c6973743c737472696e673e4045a1046c697374";
  "0080c562000000000003c02602a3226e65742e636f7264613a70446141776b6a632b51516f43584e6b634f786541773d";
  "3d40450080c562000000000009c10100"]).

(** bin/test-files/_i_.dp *)
Definition file_i__dp : string := unhex (join [
  "636f7264610200000080c562000000000001c0c20300a3226e65742e636f7264613a6b566d7a5a36355638552f53592b";
  "6f4953446c4437673d3dc0030154450080c562000000000002c07e01c07b010080c562000000000005c06e05a1186e65";
  "742e636f7264612e626c6f627772697465722e5f695f40450080c562000000000003c02602a3226e65742e636f726461";
  "3a6b566d7a5a36355638552f53592b6f4953446c4437673d3d40c01d010080c562000000000004c01007a10161a10369";
  "6e7445a101304041420080c562000000000009c10100"]).

(** bin/test-files/_isR_ *)
Definition file_isR_ : string := unhex (join [
  "636f7264610100000080c562000000000001d0000001880000000300a3226e65742e636f7264613a4e75665a7852516b";
  "4557616b674339686563615465513d3dc068035405a10373697800a3226e65742e636f7264613a4e75665a7852516b45";
  "57616b674339686563615465513d3dc039035403a104666f757200a3226e65742e636f7264613a4e75665a7852516b45";
  "57616b674339686563615465513d3dc009035401a10374776f400080c562000000000002c0dc01c0d9010080c5620000";
  "00000005c0cc05a11e6e65742e636f7264612e626c6f627772697465722e52656375727369766540450080c562000000";
  "000003c02602a3226e65742e636f7264613a4e75665a7852516b4557616b674339686563615465513d3d40c075030080";
  "c562000000000004c01207a1036d5f61a103696e7445a101304041420080c562000000000004c01307a1036d5f62a106";
  "737472696e6745404041420080c562000000000004c02b07a1036d5f63a11e6e65742e636f7264612e626c6f62777269";
  "7465722e52656375727369766545404042420080c562000000000009c10100"]).

(** bin/reader-tests/reader-test-01/writer-test-1-op *)
Definition written_1 : string := unhex (join [
  "636f7264610100000080c562000000000001d0000000de0000000300a30e66696e6765727072696e74313233d0000000";
  "0800000002546454640080c562000000000002d0000000ac00000001d0000000a3000000010080c562000000000005d0";
  "0000009000000005a10d446553657269616c6973654d65a100450080c562000000000003d00000001500000002a30e66";
  "696e6765727072696e7431323340d000000051000000020080c562000000000004d00000001700000007a1056d5f7661";
  "6ca103696e7445a100a10042420080c562000000000004d00000001800000007a1066d5f76616c32a103696e7445a100";
  "a100414240"]).

(** bin/reader-tests/reader-test-03-composite-ptr/serialized.bin *)
Definition written_3 : string := unhex (join [
  "636f7264610100000080c562000000000001d0000001870000000300a3084f75746572313233d0000000340000000200";
  "a308496e6e6572313233d000000008000000025401540200a308496e6e6572313233d000000008000000025403540400";
  "80c562000000000002d00000012f00000001d000000126000000020080c562000000000005d00000008300000005a105";
  "496e6e6572a100450080c562000000000003d00000000f00000002a308496e6e657231323340d0000000520000000200";
  "80c562000000000004d00000001800000007a1066d5f76616c31a103696e7445a100a10042420080c562000000000004";
  "d00000001800000007a1066d5f76616c32a103696e7445a100a10042420080c562000000000005d00000008100000005";
  "a1054f75746572a100450080c562000000000003d00000000f00000002a3084f7574657231323340d000000050000000";
  "020080c562000000000004d00000001700000007a1036d5f61a105496e6e657245a100a10042420080c5620000000000";
  "04d00000001700000007a1036d5f62a105496e6e657245a100a100424240"]).

(** bin/reader-tests/reader-test-04-many-prims/serialized.bin *)
Definition written_4 : string := unhex (join [
  "636f7264610100000080c562000000000001d0000001fc0000000300a3084f75746572313233d0000000330000000100";
  "a308496e6e6572313233d00000001f00000006546471000000c8710000012c710000019071000001f471000002580080";
  "c562000000000002d0000001a500000001d00000019c000000020080c562000000000005d00000011f00000005a10549";
  "6e6e6572a100450080c562000000000003d00000000f00000002a308496e6e657231323340d0000000ee000000060080";
  "c562000000000004d00000001800000007a1066d5f76616c31a103696e7445a100a10042420080c562000000000004d0";
  "0000001800000007a1066d5f76616c32a103696e7445a100a10042420080c562000000000004d00000001800000007a1";
  "066d5f76616c33a103696e7445a100a10042420080c562000000000004d00000001800000007a1066d5f76616c34a103";
  "696e7445a100a10042420080c562000000000004d00000001800000007a1066d5f76616c35a103696e7445a100a10042";
  "420080c562000000000004d00000001800000007a1066d5f76616c36a103696e7445a100a10042420080c56200000000";
  "0005d00000005b00000005a1054f75746572a100450080c562000000000003d00000000f00000002a3084f7574657231";
  "323340d00000002a000000010080c562000000000004d00000001700000007a1036d5f61a105496e6e657245a100a100";
  "424240"]).
