#!/usr/bin/env python3
"""Writes rocq/theories/Conform.v: the inputs of the project's own tests (Code/Tests, Data/Test) with
the results the tests expect, checked of the model."""
import math,os,re
repo='/repo/'
src=open(repo+'Code/Tests/test03.cpp').read()
def files(name):
    m=re.search(r'%s\[\]\s*=\s*\{(.*?)\};'%name,src,re.S)
    return re.findall(r'"([^"]+)"',m.group(1))
out=['''(** * The project's own test inputs, run through the model.

    Generated by tools/conform.py. Code/Tests/test03.cpp:5-27 lists files that Parse must
    refuse and files that it must accept; the model gives these verdicts, in both builds.
    Tests 01, 02, 04 and 05 deserialize, validate and serialize; the model gives the values
    they expect, in builds with system conversions.
    These are tests of the model, not theorems about it. *)

From Verif Require Import Base Str NumModel MapModel ParserModel WriterModel SchemaModel PropWrite BuildModel PropBuild.
From Coq Require Import Floats.SpecFloat.

Definition accepts (system : bool) (t : list Z) : bool :=
  match build_parse (reader system) None (t ++ [0]) with
  | Ret (PR kOk _ _, Some _, _) => true
  | _ => false
  end.
Definition refuses (system : bool) (t : list Z) : bool :=
  match build_parse (reader system) None (t ++ [0]) with
  | Ret (PR kOk _ _, _, _) => false
  | Ret (PR _ _ _, _, _) => true
  | _ => false
  end.
''']
def literal(b):
    lines=[]; cur=''
    for x in b:
        t='%d; '%x
        if len(cur)+len(t)>150: lines.append(cur.rstrip()); cur=''
        cur+=t
    lines.append(cur.rstrip('; '))
    return '[\n  %s]'%'\n  '.join(lines)
for name,fn in (('mustFail','refuses'),('mustPass','accepts')):
    for f in files(name):
        ident=re.sub(r'\W','_',os.path.basename(f)[:-5])
        out.append('(** %s *)\nDefinition %s : list Z := %s.\nExample %s_%s : %s true %s = true /\\ %s false %s = true.\nProof. vm_compute. auto. Qed.\n'%(f,ident,literal(open(repo+f,'rb').read()),ident,fn,fn,ident,fn,ident))

# The values the compiler gives to the literals of the tests.
def double(x):
    if x==0: return 'S754_zero false'
    m,e=math.frexp(abs(x))
    return 'S754_finite %s %d (%d)'%('true' if x<0 else 'false',int(m*2**53),e-53)
for n in ('01','02','04'):
    f='Data/Test/test_file%s.json'%n
    out.append('(** %s *)\nDefinition test_file%s : list Z := %s.\n'%(f,n,literal(open(repo+f,'rb').read())))
rest='''Definition root_of (t : list Z) : option value :=
  match sd_parse None (t ++ [0]) with Ret (PR kOk 0 0, Some v) => Some v | _ => None end.
Definition zero : double := S754_zero false.
(** What the program's doubles and bools hold before anything is stored. *)
Definition noise : junk := Junk (S754_infinity true) true.

(** Code/Tests/test01.cpp:5-16 *)
Definition test01_type : ty :=
  TStruct (PItem (Named `"str1") None TString (PItem (Named `"str2") None TStdString
    (PItem (Named `"double") (Some (DDouble zero)) TDouble (PItem (Named `"bool") (Some (DBool false)) TBool
    (PItem (Named `"null") None TNull PNil))))).
(** Code/Tests/test01.cpp:33-63 *)
Example test01 : sd_deserialize noise test01_type (root_of test_file01) (fresh noise test01_type) =
  Ret (kOk, DStruct [DString `"str1Value"; DString `"str2Value"; DDouble (@2.36531e-7@); DBool true; DNull]).
Proof. vm_compute. reflexivity. Qed.

(** Code/Tests/test02.cpp:5-32 *)
Definition test02_inner : ty :=
  TStruct (PItem (Named `"double") (Some (DDouble zero)) TDouble (PItem (Named `"string") None TString PNil)).
Definition test02_object : ty :=
  TStruct (PItem (Named `"bool") (Some (DBool true)) TBool (PItem (Named `"objectArray") None (TArray test02_inner) PNil)).
Definition test02_type : ty :=
  TStruct (PItem (Named `"double") (Some (DDouble zero)) TDouble (PItem (Named `"doubleArray") None (TArray TDouble)
    (PItem (Named `"stringArray") None (TArray TString) (PItem (Named `"object") None test02_object PNil)))).
Definition test02_data (last : double) : data :=
  DStruct [DDouble (@2.45e-2@);
    DArray (map DDouble [@3@; @4@; @5@; @1.65e17@; @-2.35e-20@; @1.9643e-11@]);
    DArray (map DString [`"str1"; `"str2"; `"str3"; `"str4"]);
    DStruct [DBool false; DArray [DStruct [DDouble (@3.46@); DString `"str5"]; DStruct [DDouble (@2.46@); DString `"str6"];
      DStruct [DDouble last; DString `"str7"]]]].
(** Code/Tests/test02.cpp:50-74 *)
Example test02_read : sd_deserialize noise test02_type (root_of test_file02) (fresh noise test02_type) =
  Ret (kOk, test02_data (@-2.46@)).
Proof. vm_compute. reflexivity. Qed.
(** Code/Tests/test02.cpp:76-110. The test reads [jSd] again, not [jSd2], which it parsed from the written file; here the
    written text is read. *)
Example test02_round_trip :
  match sd_serialize test02_type (test02_data (@3.14159e-17@)) (root_of test_file02) with
  | Ret (kOk, Some v) => sd_deserialize noise test02_type (root_of (text (snd (sd_write (Some v) 1 9)))) (fresh noise test02_type)
  | _ => UB
  end = Ret (kOk, test02_data (@3.14159e-17@)).
Proof. vm_compute. reflexivity. Qed.

(** Without system conversions test 02 fails at lines 57-61: 2.45e-2 is read as the double below the compiler's. *)
Example test02_portable :
  match build_parse (reader false) None (test_file02 ++ [0]) with
  | Ret (PR kOk 0 0, Some v, _) =>
      match sd_deserialize noise test02_type (Some v) (fresh noise test02_type) with
      | Ret (kOk, DStruct (DDouble d :: _)) => d = S754_finite false 7061644215716937 (-58) /\\ d <> @2.45e-2@
      | _ => False
      end
  | _ => False
  end.
Proof. vm_compute. split; [reflexivity|discriminate]. Qed.

(** Code/Tests/test04.cpp:6-13 *)
Definition test04_type : ty :=
  TStruct (PItem (Named `"version") None TString (PItem (Named `"stringMap") None (TObjectMap TString) PNil)).
(** Code/Tests/test04.cpp:30-54 *)
Example test04 : exists m, sd_deserialize noise test04_type (root_of test_file04) (fresh noise test04_type) =
    Ret (kOk, DStruct [DString `"1.0.1"; DMap m]) /\\
  find_map_element m `"str1" = Some (DString `"str1v") /\\
  find_map_element m `"str2" = Some (DString `"str2v") /\\
  find_map_element m `"str3" = Some (DString `"str3v").
Proof. eexists. split; [vm_compute; reflexivity|]. vm_compute. auto. Qed.

(** Code/Tests/test05.cpp:5-12 *)
Definition test05_type : ty :=
  TStruct (PItem (Named `"version") None TStdString (PItem (Named `"stringMap") None (TStdMap TStdString) PNil)).
(** Code/Tests/test05.cpp:29-61 *)
Example test05 : sd_validate test05_type (root_of test_file04) = Ret kOk /\\
  sd_deserialize noise test05_type (root_of test_file04) (fresh noise test05_type) =
    Ret (kOk, DStruct [DString `"1.0.1";
      DStdMap [(`"str1", DString `"str1v"); (`"str2", DString `"str2v"); (`"str3", DString `"str3v")]]).
Proof. vm_compute. auto. Qed.
'''
out.append(re.sub(r'@([^@]+)@',lambda m:double(float(m.group(1))),rest))
open(os.path.join(os.path.dirname(__file__),'..','rocq','theories','Conform.v'),'w').write('\n'.join(out))
