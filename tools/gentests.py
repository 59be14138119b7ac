import re,struct
out=[]
out.append('''(** * RepoTests: the test suite of /repo/tests run on the model.

    These are tests of the model, not theorems about all inputs: each [Example] is one assertion of
    a test of the repository, computed.  Every [assert_eq!] of every file in /repo/tests is here; the
    texts of deserialisation errors are not modelled, so those assertions only say "an error". *)
From Verif Require Import Base Utf8 Value DataTypes Records Parser Wire Spec Serde PropsG.
From Coq Require Strings.String.
Import String.StringSyntax.

Section with_libs.
Context {DL : DecimalLib} {FL : FloatLib}.

(** Header of all tests but method_return.rs. *)
Definition test_header : bytes := bs_of [0; 1;0;0;0; 255;255;255;255; 1;0;0;0; 0;0;0;0]%N.
Definition test_value (v : value) : message := MValue v.
''')
def wrap(name,cls,code,bytes_,val,t,d,struct_=True):
    out.append(f'''(** tests/{name}.rs *)
Definition test_{name} : bytes := test_header ++ bs_of [4; 1;0;0;0]%N ++ ex_lps (lit "{cls}") ++ bs_of [1;0;0;0]%N
  ++ ex_lps (lit "m_value") ++ bs_of [0; {code}]%N ++ bs_of [{'; '.join(map(str,bytes_))}]%N ++ bs_of [11]%N.
Example test_{name}_parse :
  deserialize test_{name} = POk (MValue (VObject (mkObj (lit "{cls}") None [(lit "m_value", {val})]))).
Proof. vm_compute. reflexivity. Qed.
Example test_{name}_deserialize : from_slice ({t}) test_{name} = FOk ({d}).
Proof. vm_compute. reflexivity. Qed.''')
    if struct_:
        out.append(f'''Example test_{name}_deserialize_struct :
  from_slice (T_struct [(lit "m_value", {t})]) test_{name} = FOk (D_struct [(lit "m_value", {d})]).
Proof. vm_compute. reflexivity. Qed.''')
    out.append('')
wrap('boolean','System.Boolean',1,[1],'VBoolean true','T_bool','D_bool true',False)
wrap('byte','System.Byte',2,[0x81],'VByte 129','T_int U8','D_int 129')
dbl=[0xff,0xb2,ord('{'),0xf2,0xb0,ord('P'),0xbb,0xbf]
bits=struct.unpack('<Q',struct.pack('<d',-0.1067))[0]
assert bits==int.from_bytes(bytes(dbl),'little')
wrap('double','System.Double',6,dbl,f'VDouble {bits}','T_f64',f'D_f64 {bits}')
wrap('int16','System.Int16',7,[0x70,0xff],'VInt16 (-144)','T_int I16','D_int (-144)',False)
wrap('int32','System.Int32',8,[255]*4,'VInt32 (-1)','T_int I32','D_int (-1)')
wrap('int32_2','System.Int32',8,[12,0,0,0],'VInt32 12','T_int I32','D_int 12',False)
wrap('int64','System.Int64',9,[255]*8,'VInt64 (-1)','T_int I64','D_int (-1)')
wrap('sbyte','System.SByte',10,[0x81],'VSByte (-127)','T_int I8','D_int (-127)')
fb=struct.unpack('<I',struct.pack('<f',3.14))[0]
assert fb==int.from_bytes(bytes([0xc3,0xf5,0x48,0x40]),'little')
wrap('single','System.Single',11,[0xc3,0xf5,0x48,0x40],f'VSingle {fb}','T_f32',f'D_f32 {fb}',False)
wrap('uint16','System.UInt16',14,[0x70,0xff],'VUInt16 65392','T_int U16','D_int 65392')
wrap('uint32','System.UInt32',15,[0x70,0xff,0,0],'VUInt32 65392','T_int U32','D_int 65392')
wrap('uint64','System.UInt64',16,[0x70,0xff,0,0,0,0,0,0],'VUInt64 65392','T_int U64','D_int 65392')
def nums(fn):
    s=open('/repo/tests/'+fn+'.rs').read()
    m=re.search(r'let input = \[(.*?)\];',s,re.S).group(1)
    m=re.sub(r'//.*','',m)
    return [int(x,0) for x in m.replace('\n',' ').split(',') if x.strip()]
def arr(name,val):
    b=nums(name)
    out.append(f'''(** tests/{name}.rs *)
Definition test_{name} : bytes := bs_of [{';'.join(map(str,b))}]%N.
Example test_{name}_parse : deserialize test_{name} = POk ({val}).
Proof. vm_compute. reflexivity. Qed.
''')
def ints(l): return 'VArray ['+'; '.join(f'VInt32 {x}' for x in l)+']'
arr('binary_array_jagged','MValue (VArray ['+'; '.join(map(ints,[[1,2],[3,4,5],[6,7,8,9]]))+'])')
arr('binary_array_jagged_offset','MValue (VArray ['+'; '.join(map(ints,[[1],[2,3],[4,5,6]]))+'])')
arr('binary_array_rectangular','MValue (VArray [VArray [VInt64 67; VInt64 42]])')
arr('binary_array_rectangular_offset','MValue (VArray (replicate 10 (VArray (replicate 4 (VInt32 0)))))')
arr('binary_array_single_offset','MValue (VArray (replicate 10 (VInt32 0)))')
arr('method_call','''MMethodCall (mkMethodCall (lit "SendAddress")
    (lit "DOJRemotingMetadata.MyServer, DOJRemotingMetadata, Version=1.0.2622.31326, Culture=neutral, PublicKeyToken=null")
    None
    (Some [VObject (mkObj (lit "DOJRemotingMetadata.Address")
      (Some (lit "DOJRemotingMetadata, Version=1.0.2622.31326, Culture=neutral, PublicKeyToken=null"))
      [(lit "Street", VString (lit "One Microsoft Way")); (lit "City", VString (lit "Redmond"));
       (lit "State", VString (lit "WA")); (lit "Zip", VString (lit "98054"))])]))''')
arr('method_return','MMethodReturn (mkMethodReturn (Some (VString (lit "Address received"))) None None)')
out.append('''(** tests/array_single_primitive.rs *)
Definition test_array_single_primitive : bytes :=
  test_header ++ bs_of [15; 1;0;0;0; 2;0;0;0; 9; 67;0;0;0;0;0;0;0; 42;0;0;0;0;0;0;0; 11]%N.
Example test_array_single_primitive_parse :
  deserialize test_array_single_primitive = POk (MValue (VArray [VInt64 67; VInt64 42])).
Proof. vm_compute. reflexivity. Qed.
Example test_array_single_primitive_deserialize :
  from_slice (T_vec (T_int I64)) test_array_single_primitive = FOk (D_seq [D_int 67; D_int 42])
  /\\ from_slice (T_vec (T_int I32)) test_array_single_primitive = FOk (D_seq [D_int 67; D_int 42])
  /\\ from_slice (T_array (T_int I64) 1) test_array_single_primitive = FErr
  /\\ from_slice (T_array (T_int I64) 2) test_array_single_primitive = FOk (D_seq [D_int 67; D_int 42])
  /\\ from_slice (T_array (T_int I64) 3) test_array_single_primitive = FErr.
Proof. split_and!; vm_compute; reflexivity. Qed.

(** tests/array_single_string.rs *)
Definition test_array_single_string : bytes :=
  test_header ++ bs_of [17; 1;0;0;0; 2;0;0;0; 6; 2;0;0;0; 3]%N ++ lit "Bob" ++ bs_of [6; 3;0;0;0; 3]%N ++ lit "Rob"
  ++ bs_of [11]%N.
Example test_array_single_string_parse :
  deserialize test_array_single_string = POk (MValue (VArray [VString (lit "Bob"); VString (lit "Rob")])).
Proof. vm_compute. reflexivity. Qed.
Example test_array_single_string_deserialize :
  from_slice (T_array T_str 2) test_array_single_string = FOk (D_seq [D_str (lit "Bob"); D_str (lit "Rob")])
  /\\ from_slice (T_vec T_string) test_array_single_string = FOk (D_seq [D_str (lit "Bob"); D_str (lit "Rob")]).
Proof. split_and!; vm_compute; reflexivity. Qed.

(** tests/string.rs *)
Definition test_string_empty : bytes := test_header ++ bs_of [6; 1;0;0;0; 0; 11]%N.
Example test_string_empty_parse : deserialize test_string_empty = POk (MValue (VString [])).
Proof. vm_compute. reflexivity. Qed.
Definition test_string : bytes :=
  test_header ++ bs_of [6; 1;0;0;0; 17]%N ++ lit "This is a string." ++ bs_of [11]%N.
Example test_string_parse : deserialize test_string = POk (MValue (VString (lit "This is a string."))).
Proof. vm_compute. reflexivity. Qed.
Example test_string_deserialize :
  from_slice T_str test_string = FOk (D_str (lit "This is a string."))
  /\\ from_slice T_string test_string = FOk (D_str (lit "This is a string.")).
Proof. split_and!; vm_compute; reflexivity. Qed.

(** tests/list_of_customers.rs *)
Definition test_list_class : str :=
  lit "System.Collections.Generic.List`1[[System.String, mscorlib, Version=4.0.0.0, Culture=neutral, PublicKeyToken=b77a5c561934e089]]".
Definition test_list_of_customers : bytes :=
  test_header ++ bs_of [4; 1;0;0;0; 127]%N ++ test_list_class ++ bs_of [3;0;0;0]%N
  ++ ex_lps (lit "_items") ++ ex_lps (lit "_size") ++ ex_lps (lit "_version")
  ++ bs_of [6; 0; 0; 8; 8; 9; 2;0;0;0; 2;0;0;0; 2;0;0;0; 17; 2;0;0;0; 4;0;0;0; 6; 3;0;0;0; 3]%N ++ lit "Bob"
  ++ bs_of [6; 4;0;0;0; 3]%N ++ lit "Rob" ++ bs_of [13; 2; 11]%N.
Example test_list_of_customers_parse :
  deserialize test_list_of_customers = POk (MValue (VObject (mkObj test_list_class None
    [(lit "_items", VArray [VString (lit "Bob"); VString (lit "Rob"); VNull; VNull]);
     (lit "_size", VInt32 2); (lit "_version", VInt32 2)]))).
Proof. vm_compute. reflexivity. Qed.
Example test_list_of_customers_deserialize :
  from_slice (T_array T_str 2) test_list_of_customers = FOk (D_seq [D_str (lit "Bob"); D_str (lit "Rob")])
  /\\ from_slice (T_vec T_str) test_list_of_customers = FOk (D_seq [D_str (lit "Bob"); D_str (lit "Rob")])
  /\\ from_slice (T_struct [(lit "_items", T_vec (T_option T_string)); (lit "_size", T_int I32); (lit "_version", T_int I32)])
       test_list_of_customers
     = FOk (D_struct [(lit "_items", D_seq [D_some (D_str (lit "Bob")); D_some (D_str (lit "Rob")); D_none; D_none]);
                      (lit "_size", D_int 2); (lit "_version", D_int 2)]).
Proof. split_and!; vm_compute; reflexivity. Qed.
End with_libs.''')
open('/verif/rocq/theories/RepoTests.v','w').write('\n'.join(out)+'\n')
