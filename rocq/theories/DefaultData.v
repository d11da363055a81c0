(** * DefaultData: the default tables of data.py (generated from data.py 205-438). *)
From Coq Require Import List ZArith Bool Ascii String.
From Verif Require Import Base Books Chars Regex Data.
Import ListNotations.
Open Scope Z_scope.
Open Scope string_scope.

(** data.py 205-272. *)
Definition default_book_order : list book :=
  [Gen; Exod; Lev; Num; Deut; Josh; Judg; Ruth;
   ISam; IISam; IKgs; IIKgs; IChr; IIChr; Ezra; Neh;
   Esth; Job; Psa; Prov; Eccl; Song; Isa; Jer;
   Lam; Ezek; Dan; Hos; Joel; Amos; Obad; Jonah;
   Mic; Nah; Hab; Zeph; Hag; Zech; Mal; Matt;
   Mark; Luke; John; Acts; Rom; ICor; IICor; Gal;
   Eph; Phil; Col; ITh; IITh; ITim; IITim; Titus;
   Phlm; Heb; Jam; IPet; IIPet; IJn; IIJn; IIIJn;
   Jude; Rev].

(** data.py 278-345. *)
Definition default_name_data (b : book) : option name_entry :=
  match b with
  | Gen => Some (mkName "Gen" "Genesis" 2 [s2l "Gn"])
  | Exod => Some (mkName "Exod" "Exodus" 2 [])
  | Lev => Some (mkName "Lev" "Leviticus" 2 [s2l "Lv"])
  | Num => Some (mkName "Num" "Numbers" 2 [s2l "Nm"; s2l "Nb"])
  | Deut => Some (mkName "Deut" "Deuteronomy" 2 [s2l "Dt"])
  | Josh => Some (mkName "Josh" "Joshua" 3 [s2l "Js"; s2l "Jsh"])
  | Judg => Some (mkName "Judg" "Judges" 4 [s2l "Jg"; s2l "Jdg"; s2l "Jdgs"])
  | Ruth => Some (mkName "Ruth" "Ruth" 2 [s2l "Ruth"])
  | ISam => Some (mkName "1Sam" "1 Samuel" 1 [s2l "1 Sm"])
  | IISam => Some (mkName "2Sam" "2 Samuel" 1 [s2l "2 Sm"])
  | IKgs => Some (mkName "1Kgs" "1 Kings" 1 [s2l "1 Kg"; s2l "1 Kgs"])
  | IIKgs => Some (mkName "2Kgs" "2 Kings" 1 [s2l "2 Kg"; s2l "2 Kgs"])
  | IChr => Some (mkName "1Chr" "1 Chronicles" 2 [])
  | IIChr => Some (mkName "2Chr" "2 Chronicles" 2 [])
  | Ezra => Some (mkName "Ezra" "Ezra" 3 [])
  | Neh => Some (mkName "Neh" "Nehemiah" 2 [])
  | Esth => Some (mkName "Esth" "Esther" 2 [])
  | Job => Some (mkName "Job" "Job" 3 [s2l "Jb"])
  | Psa => Some (mkName "Psa" "Psalms" 2 [s2l "Pslm"; s2l "Psm"; s2l "Pss"])
  | Prov => Some (mkName "Prov" "Proverbs" 2 [s2l "Prv"])
  | Eccl => Some (mkName "Eccl" "Ecclesiastes" 2 [])
  | Song => Some (mkName "Song" "Song of Songs" 2 [s2l "Song of Sol"; s2l "Song of Solo"; s2l "Song of Solomon"; s2l "SOS"])
  | Isa => Some (mkName "Isa" "Isaiah" 2 [])
  | Jer => Some (mkName "Jer" "Jeremiah" 2 [s2l "Jr"])
  | Lam => Some (mkName "Lam" "Lamentations" 2 [])
  | Ezek => Some (mkName "Ezek" "Ezekiel" 3 [s2l "Ezk"])
  | Dan => Some (mkName "Dan" "Daniel" 2 [s2l "Dn"])
  | Hos => Some (mkName "Hos" "Hosea" 2 [])
  | Joel => Some (mkName "Joel" "Joel" 3 [s2l "Jl"])
  | Amos => Some (mkName "Amos" "Amos" 2 [])
  | Obad => Some (mkName "Obad" "Obadiah" 2 [s2l "Obd"])
  | Jonah => Some (mkName "Jona" "Jonah" 3 [s2l "Jnh"])
  | Mic => Some (mkName "Mic" "Micah" 2 [s2l "Mc"])
  | Nah => Some (mkName "Nah" "Nahum" 2 [])
  | Hab => Some (mkName "Hab" "Habakkuk" 3 [s2l "Hbk"])
  | Zeph => Some (mkName "Zeph" "Zephaniah" 3 [s2l "Zp"; s2l "Zph"])
  | Hag => Some (mkName "Hag" "Haggai" 3 [s2l "Hg"])
  | Zech => Some (mkName "Zech" "Zechariah" 3 [s2l "Zc"])
  | Mal => Some (mkName "Mal" "Malachi" 3 [s2l "Ml"])
  | Matt => Some (mkName "Matt" "Matthew" 3 [s2l "Mt"])
  | Mark => Some (mkName "Mark" "Mark" 3 [s2l "Mk"; s2l "Mrk"])
  | Luke => Some (mkName "Luke" "Luke" 2 [s2l "Lk"])
  | John => Some (mkName "John" "John" 3 [s2l "Jn"; s2l "Jhn"])
  | Acts => Some (mkName "Acts" "Acts" 2 [])
  | Rom => Some (mkName "Rom" "Romans" 2 [s2l "Rm"])
  | ICor => Some (mkName "1Cor" "1 Corinthians" 2 [])
  | IICor => Some (mkName "2Cor" "2 Corinthians" 2 [])
  | Gal => Some (mkName "Gal" "Galatians" 2 [])
  | Eph => Some (mkName "Eph" "Ephesians" 2 [])
  | Phil => Some (mkName "Phil" "Philippians" 4 [s2l "Pp"; s2l "Php"])
  | Col => Some (mkName "Col" "Colossians" 2 [])
  | ITh => Some (mkName "1Th" "1 Thessalonians" 2 [s2l "1 Ths"])
  | IITh => Some (mkName "2Th" "2 Thessalonians" 2 [s2l "2 Ths"])
  | ITim => Some (mkName "1Tim" "1 Timothy" 2 [])
  | IITim => Some (mkName "2Tim" "2 Timothy" 2 [])
  | Titus => Some (mkName "Tit" "Titus" 2 [])
  | Phlm => Some (mkName "Phlm" "Philemon" 5 [s2l "Pm"; s2l "Phm"; s2l "Phlm"])
  | Heb => Some (mkName "Heb" "Hebrews" 2 [])
  | Jam => Some (mkName "Jam" "James" 2 [s2l "Jm"; s2l "Jas"])
  | IPet => Some (mkName "1Pet" "1 Peter" 1 [s2l "1 Pt"])
  | IIPet => Some (mkName "2Pet" "2 Peter" 1 [s2l "2 Pt"])
  | IJn => Some (mkName "1Jn" "1 John" 1 [s2l "1 Jn"; s2l "1 Jhn"])
  | IIJn => Some (mkName "2Jn" "2 John" 1 [s2l "2 Jn"; s2l "2 Jhn"])
  | IIIJn => Some (mkName "3Jn" "3 John" 1 [s2l "3 Jn"; s2l "3 Jhn"])
  | Jude => Some (mkName "Jude" "Jude" 4 [])
  | Rev => Some (mkName "Rev" "Revelation" 2 [s2l "The Revelation"; s2l "The Revelation to John"])
  end.

(** data.py 356-423. *)
Definition default_max_verses (b : book) : option (list Z) :=
  match b with
  | Gen => Some [31; 25; 24; 26; 32; 22; 24; 22; 29; 32; 32; 20; 18; 24; 21; 16; 27; 33; 38; 18; 34; 24; 20; 67;
      34; 35; 46; 22; 35; 43; 55; 32; 20; 31; 29; 43; 36; 30; 23; 23; 57; 38; 34; 34; 28; 34; 31; 22;
      33; 26]
  | Exod => Some [22; 25; 22; 31; 23; 30; 25; 32; 35; 29; 10; 51; 22; 31; 27; 36; 16; 27; 25; 26; 36; 31; 33; 18;
      40; 37; 21; 43; 46; 38; 18; 35; 23; 35; 35; 38; 29; 31; 43; 38]
  | Lev => Some [17; 16; 17; 35; 19; 30; 38; 36; 24; 20; 47; 8; 59; 57; 33; 34; 16; 30; 37; 27; 24; 33; 44; 23;
      55; 46; 34]
  | Num => Some [54; 34; 51; 49; 31; 27; 89; 26; 23; 36; 35; 16; 33; 45; 41; 50; 13; 32; 22; 29; 35; 41; 30; 25;
      18; 65; 23; 31; 40; 16; 54; 42; 56; 29; 34; 13]
  | Deut => Some [46; 37; 29; 49; 33; 25; 26; 20; 29; 22; 32; 32; 18; 29; 23; 22; 20; 22; 21; 20; 23; 30; 25; 22;
      19; 19; 26; 68; 29; 20; 30; 52; 29; 12]
  | Josh => Some [18; 24; 17; 24; 15; 27; 26; 35; 27; 43; 23; 24; 33; 15; 63; 10; 18; 28; 51; 9; 45; 34; 16; 33]
  | Judg => Some [36; 23; 31; 24; 31; 40; 25; 35; 57; 18; 40; 15; 25; 20; 20; 31; 13; 31; 30; 48; 25]
  | Ruth => Some [22; 23; 18; 22]
  | ISam => Some [28; 36; 21; 22; 12; 21; 17; 22; 27; 27; 15; 25; 23; 52; 35; 23; 58; 30; 24; 42; 15; 23; 29; 22;
      44; 25; 12; 25; 11; 31; 13]
  | IISam => Some [27; 32; 39; 12; 25; 23; 29; 18; 13; 19; 27; 31; 39; 33; 37; 23; 29; 33; 43; 26; 22; 51; 39; 25]
  | IKgs => Some [53; 46; 28; 34; 18; 38; 51; 66; 28; 29; 43; 33; 34; 31; 34; 34; 24; 46; 21; 43; 29; 53]
  | IIKgs => Some [18; 25; 27; 44; 27; 33; 20; 29; 37; 36; 21; 21; 25; 29; 38; 20; 41; 37; 37; 21; 26; 20; 37; 20;
      30]
  | IChr => Some [54; 55; 24; 43; 26; 81; 40; 40; 44; 14; 47; 40; 14; 17; 29; 43; 27; 17; 19; 8; 30; 19; 32; 31;
      31; 32; 34; 21; 30]
  | IIChr => Some [17; 18; 17; 22; 14; 42; 22; 18; 31; 19; 23; 16; 22; 15; 19; 14; 19; 34; 11; 37; 20; 12; 21; 27;
      28; 23; 9; 27; 36; 27; 21; 33; 25; 33; 27; 23]
  | Ezra => Some [11; 70; 13; 24; 17; 22; 28; 36; 15; 44]
  | Neh => Some [11; 20; 32; 23; 19; 19; 73; 18; 38; 39; 36; 47; 31]
  | Esth => Some [22; 23; 15; 17; 14; 14; 10; 17; 32; 3]
  | Job => Some [22; 13; 26; 21; 27; 30; 21; 22; 35; 22; 20; 25; 28; 22; 35; 22; 16; 21; 29; 29; 34; 30; 17; 25;
      6; 14; 23; 28; 25; 31; 40; 22; 33; 37; 16; 33; 24; 41; 30; 24; 34; 17]
  | Psa => Some [6; 12; 8; 8; 12; 10; 17; 9; 20; 18; 7; 8; 6; 7; 5; 11; 15; 50; 14; 9; 13; 31; 6; 10;
      22; 12; 14; 9; 11; 12; 24; 11; 22; 22; 28; 12; 40; 22; 13; 17; 13; 11; 5; 26; 17; 11; 9; 14;
      20; 23; 19; 9; 6; 7; 23; 13; 11; 11; 17; 12; 8; 12; 11; 10; 13; 20; 7; 35; 36; 5; 24; 20;
      28; 23; 10; 12; 20; 72; 13; 19; 16; 8; 18; 12; 13; 17; 7; 18; 52; 17; 16; 15; 5; 23; 11; 13;
      12; 9; 9; 5; 8; 28; 22; 35; 45; 48; 43; 13; 31; 7; 10; 10; 9; 8; 18; 19; 2; 29; 176; 7;
      8; 9; 4; 8; 5; 6; 5; 6; 8; 8; 3; 18; 3; 3; 21; 26; 9; 8; 24; 13; 10; 7; 12; 15;
      21; 10; 20; 14; 9; 6]
  | Prov => Some [33; 22; 35; 27; 23; 35; 27; 36; 18; 32; 31; 28; 25; 35; 33; 33; 28; 24; 29; 30; 31; 29; 35; 34;
      28; 28; 27; 28; 27; 33; 31]
  | Eccl => Some [18; 26; 22; 16; 20; 12; 29; 17; 18; 20; 10; 14]
  | Song => Some [17; 17; 11; 16; 16; 13; 13; 14]
  | Isa => Some [31; 22; 26; 6; 30; 13; 25; 22; 21; 34; 16; 6; 22; 32; 9; 14; 14; 7; 25; 6; 17; 25; 18; 23;
      12; 21; 13; 29; 24; 33; 9; 20; 24; 17; 10; 22; 38; 22; 8; 31; 29; 25; 28; 28; 25; 13; 15; 22;
      26; 11; 23; 15; 12; 17; 13; 12; 21; 14; 21; 22; 11; 12; 19; 12; 25; 24]
  | Jer => Some [19; 37; 25; 31; 31; 30; 34; 22; 26; 25; 23; 17; 27; 22; 21; 21; 27; 23; 15; 18; 14; 30; 40; 10;
      38; 24; 22; 17; 32; 24; 40; 44; 26; 22; 19; 32; 21; 28; 18; 16; 18; 22; 13; 30; 5; 28; 7; 47;
      39; 46; 64; 34]
  | Lam => Some [22; 22; 66; 22; 22]
  | Ezek => Some [28; 10; 27; 17; 17; 14; 27; 18; 11; 22; 25; 28; 23; 23; 8; 63; 24; 32; 14; 49; 32; 31; 49; 27;
      17; 21; 36; 26; 21; 26; 18; 32; 33; 31; 15; 38; 28; 23; 29; 49; 26; 20; 27; 31; 25; 24; 23; 35]
  | Dan => Some [21; 49; 30; 37; 31; 28; 28; 27; 27; 21; 45; 13]
  | Hos => Some [11; 23; 5; 19; 15; 11; 16; 14; 17; 15; 12; 14; 16; 9]
  | Joel => Some [20; 32; 21]
  | Amos => Some [15; 16; 15; 13; 27; 14; 17; 14; 15]
  | Obad => Some [21]
  | Jonah => Some [17; 10; 10; 11]
  | Mic => Some [16; 13; 12; 13; 15; 16; 20]
  | Nah => Some [15; 13; 19]
  | Hab => Some [17; 20; 19]
  | Zeph => Some [18; 15; 20]
  | Hag => Some [15; 23]
  | Zech => Some [21; 13; 10; 14; 11; 15; 14; 23; 17; 12; 17; 14; 9; 21]
  | Mal => Some [14; 17; 18; 6]
  | Matt => Some [25; 23; 17; 25; 48; 34; 29; 34; 38; 42; 30; 50; 58; 36; 39; 28; 27; 35; 30; 34; 46; 46; 39; 51;
      46; 75; 66; 20]
  | Mark => Some [45; 28; 35; 41; 43; 56; 37; 38; 50; 52; 33; 44; 37; 72; 47; 20]
  | Luke => Some [80; 52; 38; 44; 39; 49; 50; 56; 62; 42; 54; 59; 35; 35; 32; 31; 37; 43; 48; 47; 38; 71; 56; 53]
  | John => Some [51; 25; 36; 54; 47; 71; 53; 59; 41; 42; 57; 50; 38; 31; 27; 33; 26; 40; 42; 31; 25]
  | Acts => Some [26; 47; 26; 37; 42; 15; 60; 40; 43; 48; 30; 25; 52; 28; 41; 40; 34; 28; 41; 38; 40; 30; 35; 27;
      27; 32; 44; 31]
  | Rom => Some [32; 29; 31; 25; 21; 23; 25; 39; 33; 21; 36; 21; 14; 23; 33; 27]
  | ICor => Some [31; 16; 23; 21; 13; 20; 40; 13; 27; 33; 34; 31; 13; 40; 58; 24]
  | IICor => Some [24; 17; 18; 18; 21; 18; 16; 24; 15; 18; 33; 21; 14]
  | Gal => Some [24; 21; 29; 31; 26; 18]
  | Eph => Some [23; 22; 21; 32; 33; 24]
  | Phil => Some [30; 30; 21; 23]
  | Col => Some [29; 23; 25; 18]
  | ITh => Some [10; 20; 13; 18; 28]
  | IITh => Some [12; 17; 18]
  | ITim => Some [20; 15; 16; 16; 25; 21]
  | IITim => Some [18; 26; 17; 22]
  | Titus => Some [16; 15; 15]
  | Phlm => Some [25]
  | Heb => Some [14; 18; 19; 16; 14; 20; 28; 13; 28; 39; 40; 29; 25]
  | Jam => Some [27; 26; 18; 17; 20]
  | IPet => Some [25; 25; 22; 19; 14]
  | IIPet => Some [21; 22; 18]
  | IJn => Some [10; 29; 24; 21; 21]
  | IIJn => Some [13]
  | IIIJn => Some [14]
  | Jude => Some [25]
  | Rev => Some [20; 29; 22; 11; 14; 17; 17; 13; 21; 11; 19; 17; 18; 20; 8; 21; 18; 24; 21; 15; 27; 21]
  end.

(** data.py 431-438. *)
Definition default_verse_0s (b : book) : list Z :=
  match b with
  | Psa => [3; 4; 5; 6; 7; 8; 9; 11; 12; 13; 14; 15; 16; 17; 18; 19; 20; 21; 22; 23; 24; 25; 26; 27;
      28; 29; 30; 31; 32; 34; 35; 36; 37; 38; 39; 40; 41; 42; 44; 45; 46; 47; 48; 49; 50; 51; 52; 53;
      54; 55; 56; 57; 58; 59; 60; 61; 62; 63; 64; 65; 66; 67; 68; 69; 70; 72; 73; 74; 75; 76; 77; 78;
      79; 80; 81; 82; 83; 84; 85; 86; 87; 88; 89; 90; 92; 98; 100; 101; 102; 103; 108; 109; 110; 120; 121; 122;
      123; 124; 125; 126; 127; 128; 129; 130; 131; 132; 133; 134; 138; 139; 140; 141; 142; 143; 144; 145]
  | _ => []
  end.

(** data.py 446-450: the singleton after import. *)
Definition default_data : bibledata :=
  let d := fst (set_book_order empty_data default_book_order) in
  mkData (book_order d) (order d) default_max_verses default_verse_0s default_name_data
         (range_sep d) (major_list_sep d) (minor_list_sep d) (verse_sep_std d) (verse_sep_alt d).

(** The environments with the default tables and a given global flag setting. *)
Definition denv (f : flag) : env := mkEnv default_data f.
