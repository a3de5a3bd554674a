(* Documented names of the forms (ron/form.hpp:19-41 comments, forms.txt), in ASCII. *)
From Verif Require Import Prelude.
Definition form_names : list (list N) :=
  [ [122;101;114;111] (* zero *); [121;97;114;110] (* yarn *); [108;111;103] (* log *);
    [116;97;105;108] (* tail *); [112;97;116;99;104] (* patch *); [115;112;97;110] (* span *);
    [99;104;97;105;110] (* chain *); [103;114;97;112;104] (* graph *); [109;101;116;97] (* meta *);
    [112;114;101;118] (* prev *); [111;98;106] (* obj *); [115;104;97;51] (* sha3 *);
    [118;118] (* vv *); [108;119;119] (* lww *); [114;103;97] (* rga *); [109;120] (* mx *);
    [106;115;111;110] (* json *); [99;115;118] (* csv *); [116;120;116] (* txt *); [109;97;120] (* max *) ].
