(** * Quadrature tables.  GENERATED by tools/gen_gauss.py from
    solidspy/gaussutil.py; the literals are copied verbatim.  Simplification:
    a literal stands for the decimal number written in the source, not for the
    nearest binary64 number. *)
From Coq Require Import QArith ZArith List.
Import ListNotations.

(* gaussutil.py:37-37 *)
Definition gauss_1d_2_pts : list Q :=
  [-0.577350269189625764; 0.577350269189625764]%Q.

(* gaussutil.py:38-38 *)
Definition gauss_1d_2_wts : list Q :=
  [1.00000000000000000; 1.00000000000000000]%Q.

(* gaussutil.py:40-40 *)
Definition gauss_1d_3_pts : list Q :=
  [-0.774596669241483377; 0; 0.774596669241483377]%Q.

(* gaussutil.py:41-42 *)
Definition gauss_1d_3_wts : list Q :=
  [0.555555555555555556; 0.888888888888888889; 0.555555555555555556]%Q.

(* gaussutil.py:44-45 *)
Definition gauss_1d_4_pts : list Q :=
  [-0.861136311594052575; -0.339981043584856265; 0.339981043584856265;
   0.861136311594052575]%Q.

(* gaussutil.py:46-47 *)
Definition gauss_1d_4_wts : list Q :=
  [0.347854845137453857; 0.652145154862546143; 0.652145154862546143;
   0.347854845137453857]%Q.

(* gaussutil.py:49-50 *)
Definition gauss_1d_5_pts : list Q :=
  [-0.906179845938663993; -0.538469310105683091; 0; 0.538469310105683091;
   0.906179845938663993]%Q.

(* gaussutil.py:51-53 *)
Definition gauss_1d_5_wts : list Q :=
  [0.236926885056189088; 0.478628670499366468; 0.568888888888888889;
   0.478628670499366468; 0.236926885056189088]%Q.

(* gaussutil.py:55-57 *)
Definition gauss_1d_6_pts : list Q :=
  [-0.932469514203152028; -0.661209386466264514; -0.238619186083196909;
   0.238619186083196909; 0.661209386466264514; 0.932469514203152028]%Q.

(* gaussutil.py:58-60 *)
Definition gauss_1d_6_wts : list Q :=
  [0.171324492379170345; 0.360761573048138608; 0.467913934572691047;
   0.467913934572691047; 0.360761573048138608; 0.171324492379170345]%Q.

(* gaussutil.py:62-64 *)
Definition gauss_1d_7_pts : list Q :=
  [-0.949107912342758525; -0.741531185599394440; -0.405845151377397167; 0;
   0.405845151377397167; 0.741531185599394440; 0.949107912342758525]%Q.

(* gaussutil.py:65-68 *)
Definition gauss_1d_7_wts : list Q :=
  [0.129484966168869693; 0.279705391489276668; 0.381830050505118945;
   0.417959183673469388; 0.381830050505118945; 0.279705391489276668;
   0.129484966168869693]%Q.

(* gaussutil.py:70-73 *)
Definition gauss_1d_8_pts : list Q :=
  [-0.960289856497536232; -0.796666477413626740; -0.525532409916328986;
   -0.183434642495649805; 0.183434642495649805; 0.525532409916328986;
   0.796666477413626740; 0.960289856497536232]%Q.

(* gaussutil.py:74-77 *)
Definition gauss_1d_8_wts : list Q :=
  [0.101228536290376259; 0.222381034453374471; 0.313706645877887287;
   0.362683783378361983; 0.362683783378361983; 0.313706645877887287;
   0.222381034453374471; 0.101228536290376259]%Q.

(* gaussutil.py:79-82 *)
Definition gauss_1d_9_pts : list Q :=
  [-0.968160239507626090; -0.836031107326635794; -0.613371432700590397;
   -0.324253423403808929; 0; 0.324253423403808929; 0.613371432700590397;
   0.836031107326635794; 0.968160239507626090]%Q.

(* gaussutil.py:83-87 *)
Definition gauss_1d_9_wts : list Q :=
  [0.0812743883615744120; 0.180648160694857404; 0.260610696402935462;
   0.312347077040002840; 0.330239355001259763; 0.312347077040002840;
   0.260610696402935462; 0.180648160694857404; 0.0812743883615744120]%Q.

(* gaussutil.py:89-93 *)
Definition gauss_1d_10_pts : list Q :=
  [-0.973906528517171720; -0.865063366688984511; -0.679409568299024406;
   -0.433395394129247191; -0.148874338981631211; 0.148874338981631211;
   0.433395394129247191; 0.679409568299024406; 0.865063366688984511;
   0.973906528517171720]%Q.

(* gaussutil.py:94-98 *)
Definition gauss_1d_10_wts : list Q :=
  [0.0666713443086881376; 0.149451349150580593; 0.219086362515982044;
   0.269266719309996355; 0.295524224714752870; 0.295524224714752870;
   0.269266719309996355; 0.219086362515982044; 0.149451349150580593;
   0.0666713443086881376]%Q.

(* dispatch of gauss_1d, gaussutil.py:21-103 *)
Definition gauss_1d_tab (k : Z) : option (list Q * list Q) :=
  match k with
  | 2%Z => Some (gauss_1d_2_pts, gauss_1d_2_wts)
  | 3%Z => Some (gauss_1d_3_pts, gauss_1d_3_wts)
  | 4%Z => Some (gauss_1d_4_pts, gauss_1d_4_wts)
  | 5%Z => Some (gauss_1d_5_pts, gauss_1d_5_wts)
  | 6%Z => Some (gauss_1d_6_pts, gauss_1d_6_wts)
  | 7%Z => Some (gauss_1d_7_pts, gauss_1d_7_wts)
  | 8%Z => Some (gauss_1d_8_pts, gauss_1d_8_wts)
  | 9%Z => Some (gauss_1d_9_pts, gauss_1d_9_wts)
  | 10%Z => Some (gauss_1d_10_pts, gauss_1d_10_wts)
  | _ => None
  end.

(* gaussutil.py:147-147 *)
Definition gauss_tri_1_pts : list (list Q) :=
  [[0.3333333333333; 0.3333333333333]]%Q.

(* gaussutil.py:148-148 *)
Definition gauss_tri_1_wts : list Q :=
  [1.0]%Q.

(* gaussutil.py:150-153 *)
Definition gauss_tri_2_pts : list (list Q) :=
  [[0.1666666666667; 0.1666666666667]; [0.6666666666667; 0.1666666666667];
   [0.1666666666667; 0.6666666666667]]%Q.

(* gaussutil.py:154-154 *)
Definition gauss_tri_2_wts : list Q :=
  [0.333333333333; 0.333333333333; 0.333333333333]%Q.

(* gaussutil.py:156-163 *)
Definition gauss_tri_3_4_5_pts : list (list Q) :=
  [[0.1012865073235; 0.1012865073235]; [0.7974269853531; 0.1012865073235];
   [0.1012865073235; 0.7974269853531]; [0.4701420641051; 0.0597158717898];
   [0.4701420641051; 0.4701420641051]; [0.0597158717898; 0.4701420641051];
   [0.3333333333333; 0.3333333333333]]%Q.

(* gaussutil.py:164-167 *)
Definition gauss_tri_3_4_5_wts : list Q :=
  [0.1259391805448; 0.1259391805448; 0.1259391805448; 0.1323941527885;
   0.1323941527885; 0.1323941527885; 0.225]%Q.

(* gaussutil.py:169-182 *)
Definition gauss_tri_6_7_pts : list (list Q) :=
  [[0.0651301029022; 0.0651301029022]; [0.8697397941956; 0.0651301029022];
   [0.0651301029022; 0.8697397941956]; [0.3128654960049; 0.0486903154253];
   [0.6384441885698; 0.3128654960049]; [0.0486903154253; 0.6384441885698];
   [0.6384441885698; 0.0486903154253]; [0.3128654960049; 0.6384441885698];
   [0.0486903154253; 0.3128654960049]; [0.2603459660790; 0.2603459660790];
   [0.4793080678413; 0.2603459660790]; [0.2603459660790; 0.4793080678413];
   [0.3333333333333; 0.3333333333333]]%Q.

(* gaussutil.py:183-188 *)
Definition gauss_tri_6_7_wts : list Q :=
  [0.0533472356088; 0.0533472356088; 0.0533472356088; 0.0771137608903;
   0.0771137608903; 0.0771137608903; 0.0771137608903; 0.0771137608903;
   0.0771137608903; 0.1756152574332; 0.1756152574332; 0.1756152574332;
   -0.1495700444677]%Q.

(* dispatch of gauss_tri, gaussutil.py:130-192 *)
Definition gauss_tri_tab (k : Z) : option (list (list Q) * list Q) :=
  match k with
  | 1%Z => Some (gauss_tri_1_pts, gauss_tri_1_wts)
  | 2%Z => Some (gauss_tri_2_pts, gauss_tri_2_wts)
  | 3%Z | 4%Z | 5%Z => Some (gauss_tri_3_4_5_pts, gauss_tri_3_4_5_wts)
  | 6%Z | 7%Z => Some (gauss_tri_6_7_pts, gauss_tri_6_7_wts)
  | _ => None
  end.

(* gaussutil.py:219-219 *)
Definition gauss_tet_1_pts : list (list Q) :=
  [[0.25; 0.25; 0.25]]%Q.

(* gaussutil.py:220-220 *)
Definition gauss_tet_1_wts : list Q :=
  [1.0]%Q.

(* gaussutil.py:222-226 *)
Definition gauss_tet_2_pts : list (list Q) :=
  [[0.1381966011250105; 0.1381966011250105; 0.5854101966249684];
   [0.1381966011250105; 0.5854101966249684; 0.1381966011250105];
   [0.5854101966249684; 0.1381966011250105; 0.1381966011250105];
   [0.1381966011250105; 0.1381966011250105; 0.1381966011250105]]%Q.

(* gaussutil.py:227-227 *)
Definition gauss_tet_2_wts : list Q :=
  [0.25; 0.25; 0.25; 0.25]%Q.

(* gaussutil.py:229-237 *)
Definition gauss_tet_3_pts : list (list Q) :=
  [[0.3281633025163817; 0.3281633025163817; 0.0155100924508549];
   [0.1080472498984286; 0.1080472498984286; 0.6758582503047142];
   [0.3281633025163817; 0.0155100924508549; 0.3281633025163817];
   [0.1080472498984286; 0.6758582503047142; 0.1080472498984286];
   [0.0155100924508549; 0.3281633025163817; 0.3281633025163817];
   [0.6758582503047142; 0.1080472498984286; 0.1080472498984286];
   [0.3281633025163817; 0.3281633025163817; 0.3281633025163817];
   [0.1080472498984286; 0.1080472498984286; 0.1080472498984286]]%Q.

(* gaussutil.py:238-241 *)
Definition gauss_tet_3_wts : list Q :=
  [0.1362178425370874; 0.1137821574629126; 0.1362178425370874;
   0.1137821574629126; 0.1362178425370874; 0.1137821574629126;
   0.1362178425370874; 0.1137821574629126]%Q.

(* gaussutil.py:243-257 *)
Definition gauss_tet_4_5_pts : list (list Q) :=
  [[0.3108859192633006; 0.3108859192633006; 0.0673422422100982];
   [0.0927352503108912; 0.0927352503108912; 0.7217942490673263];
   [0.3108859192633006; 0.0673422422100982; 0.3108859192633006];
   [0.0927352503108912; 0.7217942490673263; 0.0927352503108912];
   [0.0673422422100982; 0.3108859192633006; 0.3108859192633006];
   [0.7217942490673263; 0.0927352503108912; 0.0927352503108912];
   [0.3108859192633006; 0.3108859192633006; 0.3108859192633006];
   [0.0927352503108912; 0.0927352503108912; 0.0927352503108912];
   [0.0455037041256496; 0.4544962958743504; 0.4544962958743504];
   [0.4544962958743504; 0.0455037041256496; 0.4544962958743504];
   [0.0455037041256496; 0.0455037041256496; 0.4544962958743504];
   [0.4544962958743504; 0.4544962958743504; 0.0455037041256496];
   [0.0455037041256496; 0.4544962958743504; 0.0455037041256496];
   [0.4544962958743504; 0.0455037041256496; 0.0455037041256496]]%Q.

(* gaussutil.py:258-263 *)
Definition gauss_tet_4_5_wts : list Q :=
  [0.1126879257180159; 0.073493043116362; 0.1126879257180159;
   0.073493043116362; 0.1126879257180159; 0.073493043116362;
   0.1126879257180159; 0.073493043116362; 0.0425460207770815;
   0.0425460207770815; 0.0425460207770815; 0.0425460207770815;
   0.0425460207770815; 0.0425460207770815]%Q.

(* gaussutil.py:265-289 *)
Definition gauss_tet_6_pts : list (list Q) :=
  [[0.0406739585346114; 0.0406739585346114; 0.8779781243961658];
   [0.3223378901422755; 0.3223378901422755; 0.0329863295731736];
   [0.214602871259152; 0.214602871259152; 0.356191386222544];
   [0.0406739585346114; 0.8779781243961658; 0.0406739585346114];
   [0.3223378901422755; 0.0329863295731736; 0.3223378901422755];
   [0.214602871259152; 0.356191386222544; 0.214602871259152];
   [0.8779781243961658; 0.0406739585346114; 0.0406739585346114];
   [0.0329863295731736; 0.3223378901422755; 0.3223378901422755];
   [0.356191386222544; 0.214602871259152; 0.214602871259152];
   [0.0406739585346114; 0.0406739585346114; 0.0406739585346114];
   [0.3223378901422755; 0.3223378901422755; 0.3223378901422755];
   [0.214602871259152; 0.214602871259152; 0.214602871259152];
   [0.0636610018750174; 0.6030056647916492; 0.2696723314583159];
   [0.6030056647916492; 0.0636610018750174; 0.2696723314583159];
   [0.0636610018750174; 0.0636610018750174; 0.2696723314583159];
   [0.6030056647916492; 0.2696723314583159; 0.0636610018750174];
   [0.0636610018750174; 0.2696723314583159; 0.0636610018750174];
   [0.2696723314583159; 0.0636610018750174; 0.0636610018750174];
   [0.0636610018750174; 0.2696723314583159; 0.6030056647916492];
   [0.2696723314583159; 0.0636610018750174; 0.6030056647916492];
   [0.0636610018750174; 0.0636610018750174; 0.6030056647916492];
   [0.2696723314583159; 0.6030056647916492; 0.0636610018750174];
   [0.0636610018750174; 0.6030056647916492; 0.0636610018750174];
   [0.6030056647916492; 0.0636610018750174; 0.0636610018750174]]%Q.

(* gaussutil.py:290-298 *)
Definition gauss_tet_6_wts : list Q :=
  [0.0100772110553206; 0.0553571815436547; 0.0399227502581675;
   0.0100772110553206; 0.0553571815436547; 0.0399227502581675;
   0.0100772110553206; 0.0553571815436547; 0.0399227502581675;
   0.0100772110553206; 0.0553571815436547; 0.0399227502581675;
   0.0482142857142857; 0.0482142857142857; 0.0482142857142857;
   0.0482142857142857; 0.0482142857142857; 0.0482142857142857;
   0.0482142857142857; 0.0482142857142857; 0.0482142857142857;
   0.0482142857142857; 0.0482142857142857; 0.0482142857142857]%Q.

(* gaussutil.py:300-335 *)
Definition gauss_tet_7_pts : list (list Q) :=
  [[0.25; 0.25; 0.25]; [0.3157011497782028; 0.3157011497782028;
   0.0528965506653916]; [0.3157011497782028; 0.0528965506653916;
   0.3157011497782028]; [0.0528965506653916; 0.3157011497782028;
   0.3157011497782028]; [0.3157011497782028; 0.3157011497782028;
   0.3157011497782028]; [0.0504898225983964; 0.4495101774016036;
   0.4495101774016036]; [0.4495101774016036; 0.0504898225983964;
   0.4495101774016036]; [0.0504898225983964; 0.0504898225983964;
   0.4495101774016036]; [0.4495101774016036; 0.4495101774016036;
   0.0504898225983964]; [0.0504898225983964; 0.4495101774016036;
   0.0504898225983964]; [0.4495101774016036; 0.0504898225983964;
   0.0504898225983964]; [0.188833831026001; 0.575171637587;
   0.0471607003609981]; [0.0212654725414831; 0.8108302410985486;
   0.1466388138184851]; [0.575171637587; 0.188833831026001;
   0.0471607003609981]; [0.8108302410985486; 0.0212654725414831;
   0.1466388138184851]; [0.188833831026001; 0.188833831026001;
   0.0471607003609981]; [0.0212654725414831; 0.0212654725414831;
   0.1466388138184851]; [0.575171637587; 0.0471607003609981;
   0.188833831026001]; [0.8108302410985486; 0.1466388138184851;
   0.0212654725414831]; [0.188833831026001; 0.0471607003609981;
   0.188833831026001]; [0.0212654725414831; 0.1466388138184851;
   0.0212654725414831]; [0.0471607003609981; 0.188833831026001;
   0.188833831026001]; [0.1466388138184851; 0.0212654725414831;
   0.0212654725414831]; [0.188833831026001; 0.0471607003609981;
   0.575171637587]; [0.0212654725414831; 0.1466388138184851;
   0.8108302410985486]; [0.0471607003609981; 0.188833831026001;
   0.575171637587]; [0.1466388138184851; 0.0212654725414831;
   0.8108302410985486]; [0.188833831026001; 0.188833831026001;
   0.575171637587]; [0.0212654725414831; 0.0212654725414831;
   0.8108302410985486]; [0.0471607003609981; 0.575171637587;
   0.188833831026001]; [0.1466388138184851; 0.8108302410985486;
   0.0212654725414831]; [0.188833831026001; 0.575171637587;
   0.188833831026001]; [0.0212654725414831; 0.8108302410985486;
   0.0212654725414831]; [0.575171637587; 0.188833831026001;
   0.188833831026001]; [0.8108302410985486; 0.0212654725414831;
   0.0212654725414831]]%Q.

(* gaussutil.py:336-348 *)
Definition gauss_tet_7_wts : list Q :=
  [0.0954852894641308; 0.042329581209967; 0.042329581209967;
   0.042329581209967; 0.042329581209967; 0.0318969278328576;
   0.0318969278328576; 0.0318969278328576; 0.0318969278328576;
   0.0318969278328576; 0.0318969278328576; 0.0372071307283346;
   0.0081107708299033; 0.0372071307283346; 0.0081107708299033;
   0.0372071307283346; 0.0081107708299033; 0.0372071307283346;
   0.0081107708299033; 0.0372071307283346; 0.0081107708299033;
   0.0372071307283346; 0.0081107708299033; 0.0372071307283346;
   0.0081107708299033; 0.0372071307283346; 0.0081107708299033;
   0.0372071307283346; 0.0081107708299033; 0.0372071307283346;
   0.0081107708299033; 0.0372071307283346; 0.0081107708299033;
   0.0372071307283346; 0.0081107708299033]%Q.

(* gaussutil.py:350-396 *)
Definition gauss_tet_8_pts : list (list Q) :=
  [[0.1079527249622109; 0.1079527249622109; 0.6761418251133673];
   [0.1851094877825866; 0.1851094877825866; 0.4446715366522402];
   [0.0423165436847673; 0.0423165436847673; 0.8730503689456981];
   [0.314181709124039; 0.314181709124039; 0.0574548726278831];
   [0.1079527249622109; 0.6761418251133673; 0.1079527249622109];
   [0.1851094877825866; 0.4446715366522402; 0.1851094877825866];
   [0.0423165436847673; 0.8730503689456981; 0.0423165436847673];
   [0.314181709124039; 0.0574548726278831; 0.314181709124039];
   [0.6761418251133673; 0.1079527249622109; 0.1079527249622109];
   [0.4446715366522402; 0.1851094877825866; 0.1851094877825866];
   [0.8730503689456981; 0.0423165436847673; 0.0423165436847673];
   [0.0574548726278831; 0.314181709124039; 0.314181709124039];
   [0.1079527249622109; 0.1079527249622109; 0.1079527249622109];
   [0.1851094877825866; 0.1851094877825866; 0.1851094877825866];
   [0.0423165436847673; 0.0423165436847673; 0.0423165436847673];
   [0.314181709124039; 0.314181709124039; 0.314181709124039];
   [0.4355913285838302; 0.0644086714161698; 0.0644086714161698];
   [0.0644086714161698; 0.4355913285838302; 0.0644086714161698];
   [0.4355913285838302; 0.4355913285838302; 0.0644086714161698];
   [0.0644086714161698; 0.0644086714161698; 0.4355913285838302];
   [0.4355913285838302; 0.0644086714161698; 0.4355913285838302];
   [0.0644086714161698; 0.4355913285838302; 0.4355913285838302];
   [0.0214339301271306; 0.7174640634263083; 0.2396680763194305];
   [0.2041393338760291; 0.5837973783021444; 0.0079239539457974];
   [0.7174640634263083; 0.0214339301271306; 0.2396680763194305];
   [0.5837973783021444; 0.2041393338760291; 0.0079239539457974];
   [0.0214339301271306; 0.0214339301271306; 0.2396680763194305];
   [0.2041393338760291; 0.2041393338760291; 0.0079239539457974];
   [0.7174640634263083; 0.2396680763194305; 0.0214339301271306];
   [0.5837973783021444; 0.0079239539457974; 0.2041393338760291];
   [0.0214339301271306; 0.2396680763194305; 0.0214339301271306];
   [0.2041393338760291; 0.0079239539457974; 0.2041393338760291];
   [0.2396680763194305; 0.0214339301271306; 0.0214339301271306];
   [0.0079239539457974; 0.2041393338760291; 0.2041393338760291];
   [0.0214339301271306; 0.2396680763194305; 0.7174640634263083];
   [0.2041393338760291; 0.0079239539457974; 0.5837973783021444];
   [0.2396680763194305; 0.0214339301271306; 0.7174640634263083];
   [0.0079239539457974; 0.2041393338760291; 0.5837973783021444];
   [0.0214339301271306; 0.0214339301271306; 0.7174640634263083];
   [0.2041393338760291; 0.2041393338760291; 0.5837973783021444];
   [0.2396680763194305; 0.7174640634263083; 0.0214339301271306];
   [0.0079239539457974; 0.5837973783021444; 0.2041393338760291];
   [0.0214339301271306; 0.7174640634263083; 0.0214339301271306];
   [0.2041393338760291; 0.5837973783021444; 0.2041393338760291];
   [0.7174640634263083; 0.0214339301271306; 0.0214339301271306];
   [0.5837973783021444; 0.2041393338760291; 0.2041393338760291]]%Q.

(* gaussutil.py:397-413 *)
Definition gauss_tet_8_wts : list Q :=
  [0.0264266509084088; 0.0520317475637385; 0.0075252561535402;
   0.0417637828569349; 0.0264266509084088; 0.0520317475637385;
   0.0075252561535402; 0.0417637828569349; 0.0264266509084088;
   0.0520317475637385; 0.0075252561535402; 0.0417637828569349;
   0.0264266509084088; 0.0520317475637385; 0.0075252561535402;
   0.0417637828569349; 0.0362809302613088; 0.0362809302613088;
   0.0362809302613088; 0.0362809302613088; 0.0362809302613088;
   0.0362809302613088; 0.0071569028908444; 0.0154534861509603;
   0.0071569028908444; 0.0154534861509603; 0.0071569028908444;
   0.0154534861509603; 0.0071569028908444; 0.0154534861509603;
   0.0071569028908444; 0.0154534861509603; 0.0071569028908444;
   0.0154534861509603; 0.0071569028908444; 0.0154534861509603;
   0.0071569028908444; 0.0154534861509603; 0.0071569028908444;
   0.0154534861509603; 0.0071569028908444; 0.0154534861509603;
   0.0071569028908444; 0.0154534861509603; 0.0071569028908444;
   0.0154534861509603]%Q.

(* gaussutil.py:415-533 *)
Definition gauss_tet_9_pts : list (list Q) :=
  [[2.5000000000000000e-01; 2.5000000000000000e-01; 2.5000000000000000e-01];
   [6.1981697552226933e-10; 6.1981697552226933e-10; 9.9999999814054907e-01];
   [1.6077453539526160e-01; 1.6077453539526160e-01; 5.1767639381421526e-01];
   [3.2227652182142102e-01; 3.2227652182142102e-01; 3.3170434535736870e-02];
   [4.5108918345413578e-02; 4.5108918345413578e-02; 8.6467324496375930e-01];
   [6.1981697552226933e-10; 9.9999999814054907e-01; 6.1981697552226933e-10];
   [1.6077453539526160e-01; 5.1767639381421526e-01; 1.6077453539526160e-01];
   [3.2227652182142102e-01; 3.3170434535736870e-02; 3.2227652182142102e-01];
   [4.5108918345413578e-02; 8.6467324496375930e-01; 4.5108918345413578e-02];
   [9.9999999814054907e-01; 6.1981697552226933e-10; 6.1981697552226933e-10];
   [5.1767639381421526e-01; 1.6077453539526160e-01; 1.6077453539526160e-01];
   [3.3170434535736870e-02; 3.2227652182142102e-01; 3.2227652182142102e-01];
   [8.6467324496375930e-01; 4.5108918345413578e-02; 4.5108918345413578e-02];
   [6.1981697552226933e-10; 6.1981697552226933e-10; 6.1981697552226933e-10];
   [1.6077453539526160e-01; 1.6077453539526160e-01; 1.6077453539526160e-01];
   [3.2227652182142102e-01; 3.2227652182142102e-01; 3.2227652182142102e-01];
   [4.5108918345413578e-02; 4.5108918345413578e-02; 4.5108918345413578e-02];
   [1.1229654600437609e-01; 3.8770345399562389e-01; 3.8770345399562389e-01];
   [3.8770345399562389e-01; 1.1229654600437609e-01; 3.8770345399562389e-01];
   [1.1229654600437609e-01; 1.1229654600437609e-01; 3.8770345399562389e-01];
   [3.8770345399562389e-01; 3.8770345399562389e-01; 1.1229654600437609e-01];
   [1.1229654600437609e-01; 3.8770345399562389e-01; 1.1229654600437609e-01];
   [3.8770345399562389e-01; 1.1229654600437609e-01; 1.1229654600437609e-01];
   [4.5887144875245922e-01; 2.5545792330413102e-03; 7.9702523262040248e-02];
   [3.3775870685338598e-02; 7.1835032644207453e-01; 2.1409793218724826e-01];
   [1.8364136980992790e-01; 3.4415910578175279e-02; 5.9830134980196892e-01];
   [2.5545792330413102e-03; 4.5887144875245922e-01; 7.9702523262040248e-02];
   [7.1835032644207453e-01; 3.3775870685338598e-02; 2.1409793218724826e-01];
   [3.4415910578175279e-02; 1.8364136980992790e-01; 5.9830134980196892e-01];
   [4.5887144875245922e-01; 4.5887144875245922e-01; 7.9702523262040248e-02];
   [3.3775870685338598e-02; 3.3775870685338598e-02; 2.1409793218724826e-01];
   [1.8364136980992790e-01; 1.8364136980992790e-01; 5.9830134980196892e-01];
   [2.5545792330413102e-03; 7.9702523262040248e-02; 4.5887144875245922e-01];
   [7.1835032644207453e-01; 2.1409793218724826e-01; 3.3775870685338598e-02];
   [3.4415910578175279e-02; 5.9830134980196892e-01; 1.8364136980992790e-01];
   [4.5887144875245922e-01; 7.9702523262040248e-02; 4.5887144875245922e-01];
   [3.3775870685338598e-02; 2.1409793218724826e-01; 3.3775870685338598e-02];
   [1.8364136980992790e-01; 5.9830134980196892e-01; 1.8364136980992790e-01];
   [7.9702523262040248e-02; 4.5887144875245922e-01; 4.5887144875245922e-01];
   [2.1409793218724826e-01; 3.3775870685338598e-02; 3.3775870685338598e-02];
   [5.9830134980196892e-01; 1.8364136980992790e-01; 1.8364136980992790e-01];
   [4.5887144875245922e-01; 7.9702523262040248e-02; 2.5545792330413102e-03];
   [3.3775870685338598e-02; 2.1409793218724826e-01; 7.1835032644207453e-01];
   [1.8364136980992790e-01; 5.9830134980196892e-01; 3.4415910578175279e-02];
   [7.9702523262040248e-02; 4.5887144875245922e-01; 2.5545792330413102e-03];
   [2.1409793218724826e-01; 3.3775870685338598e-02; 7.1835032644207453e-01];
   [5.9830134980196892e-01; 1.8364136980992790e-01; 3.4415910578175279e-02];
   [4.5887144875245922e-01; 4.5887144875245922e-01; 2.5545792330413102e-03];
   [3.3775870685338598e-02; 3.3775870685338598e-02; 7.1835032644207453e-01];
   [1.8364136980992790e-01; 1.8364136980992790e-01; 3.4415910578175279e-02];
   [7.9702523262040248e-02; 2.5545792330413102e-03; 4.5887144875245922e-01];
   [2.1409793218724826e-01; 7.1835032644207453e-01; 3.3775870685338598e-02];
   [5.9830134980196892e-01; 3.4415910578175279e-02; 1.8364136980992790e-01];
   [4.5887144875245922e-01; 2.5545792330413102e-03; 4.5887144875245922e-01];
   [3.3775870685338598e-02; 7.1835032644207453e-01; 3.3775870685338598e-02];
   [1.8364136980992790e-01; 3.4415910578175279e-02; 1.8364136980992790e-01];
   [2.5545792330413102e-03; 4.5887144875245922e-01; 4.5887144875245922e-01];
   [7.1835032644207453e-01; 3.3775870685338598e-02; 3.3775870685338598e-02];
   [3.4415910578175279e-02; 1.8364136980992790e-01;
   1.8364136980992790e-01]]%Q.

(* gaussutil.py:534-564 *)
Definition gauss_tet_9_wts : list Q :=
  [5.801054891248025e-02; 6.431928175925639e-05; 2.317333846242546e-02;
   2.956291233542929e-02; 8.063979979616182e-03; 6.431928175925639e-05;
   2.317333846242546e-02; 2.956291233542929e-02; 8.063979979616182e-03;
   6.431928175925639e-05; 2.317333846242546e-02; 2.956291233542929e-02;
   8.063979979616182e-03; 6.431928175925639e-05; 2.317333846242546e-02;
   2.956291233542929e-02; 8.063979979616182e-03; 3.813408010370246e-02;
   3.813408010370246e-02; 3.813408010370246e-02; 3.813408010370246e-02;
   3.813408010370246e-02; 3.813408010370246e-02; 8.384422198298552e-03;
   1.023455935274533e-02; 2.052491596798814e-02; 8.384422198298552e-03;
   1.023455935274533e-02; 2.052491596798814e-02; 8.384422198298552e-03;
   1.023455935274533e-02; 2.052491596798814e-02; 8.384422198298552e-03;
   1.023455935274533e-02; 2.052491596798814e-02; 8.384422198298552e-03;
   1.023455935274533e-02; 2.052491596798814e-02; 8.384422198298552e-03;
   1.023455935274533e-02; 2.052491596798814e-02; 8.384422198298552e-03;
   1.023455935274533e-02; 2.052491596798814e-02; 8.384422198298552e-03;
   1.023455935274533e-02; 2.052491596798814e-02; 8.384422198298552e-03;
   1.023455935274533e-02; 2.052491596798814e-02; 8.384422198298552e-03;
   1.023455935274533e-02; 2.052491596798814e-02; 8.384422198298552e-03;
   1.023455935274533e-02; 2.052491596798814e-02; 8.384422198298552e-03;
   1.023455935274533e-02; 2.052491596798814e-02]%Q.

(* gaussutil.py:566-647 *)
Definition gauss_tet_10_pts : list (list Q) :=
  [[0.25; 0.25; 0.25]; [0.3122500686951887; 0.3122500686951887;
   0.063249793914434]; [0.1143096538573461; 0.1143096538573461;
   0.6570710384279617]; [0.3122500686951887; 0.063249793914434;
   0.3122500686951887]; [0.1143096538573461; 0.6570710384279617;
   0.1143096538573461]; [0.063249793914434; 0.3122500686951887;
   0.3122500686951887]; [0.6570710384279617; 0.1143096538573461;
   0.1143096538573461]; [0.3122500686951887; 0.3122500686951887;
   0.3122500686951887]; [0.1143096538573461; 0.1143096538573461;
   0.1143096538573461]; [0.4104307392189654; 0.1654860256196111;
   0.0136524959424581]; [0.0061380088247907; 0.9429887673452049;
   0.0447352150052138]; [0.1210501811455894; 0.4771903799042804;
   0.2807092578045408]; [0.0327794682164426; 0.594256269480007;
   0.3401847940871078]; [0.032485281564823; 0.8011772846583444;
   0.1338521522120095]; [0.174979342183939; 0.628071845475366;
   0.021969470156756]; [0.1654860256196111; 0.4104307392189654;
   0.0136524959424581]; [0.9429887673452049; 0.0061380088247907;
   0.0447352150052138]; [0.4771903799042804; 0.1210501811455894;
   0.2807092578045408]; [0.594256269480007; 0.0327794682164426;
   0.3401847940871078]; [0.8011772846583444; 0.032485281564823;
   0.1338521522120095]; [0.628071845475366; 0.174979342183939;
   0.021969470156756]; [0.4104307392189654; 0.4104307392189654;
   0.0136524959424581]; [0.0061380088247907; 0.0061380088247907;
   0.0447352150052138]; [0.1210501811455894; 0.1210501811455894;
   0.2807092578045408]; [0.0327794682164426; 0.0327794682164426;
   0.3401847940871078]; [0.032485281564823; 0.032485281564823;
   0.1338521522120095]; [0.174979342183939; 0.174979342183939;
   0.021969470156756]; [0.1654860256196111; 0.0136524959424581;
   0.4104307392189654]; [0.9429887673452049; 0.0447352150052138;
   0.0061380088247907]; [0.4771903799042804; 0.2807092578045408;
   0.1210501811455894]; [0.594256269480007; 0.3401847940871078;
   0.0327794682164426]; [0.8011772846583444; 0.1338521522120095;
   0.032485281564823]; [0.628071845475366; 0.021969470156756;
   0.174979342183939]; [0.4104307392189654; 0.0136524959424581;
   0.4104307392189654]; [0.0061380088247907; 0.0447352150052138;
   0.0061380088247907]; [0.1210501811455894; 0.2807092578045408;
   0.1210501811455894]; [0.0327794682164426; 0.3401847940871078;
   0.0327794682164426]; [0.032485281564823; 0.1338521522120095;
   0.032485281564823]; [0.174979342183939; 0.021969470156756;
   0.174979342183939]; [0.0136524959424581; 0.4104307392189654;
   0.4104307392189654]; [0.0447352150052138; 0.0061380088247907;
   0.0061380088247907]; [0.2807092578045408; 0.1210501811455894;
   0.1210501811455894]; [0.3401847940871078; 0.0327794682164426;
   0.0327794682164426]; [0.1338521522120095; 0.032485281564823;
   0.032485281564823]; [0.021969470156756; 0.174979342183939;
   0.174979342183939]; [0.4104307392189654; 0.0136524959424581;
   0.1654860256196111]; [0.0061380088247907; 0.0447352150052138;
   0.9429887673452049]; [0.1210501811455894; 0.2807092578045408;
   0.4771903799042804]; [0.0327794682164426; 0.3401847940871078;
   0.594256269480007]; [0.032485281564823; 0.1338521522120095;
   0.8011772846583444]; [0.174979342183939; 0.021969470156756;
   0.628071845475366]; [0.0136524959424581; 0.4104307392189654;
   0.1654860256196111]; [0.0447352150052138; 0.0061380088247907;
   0.9429887673452049]; [0.2807092578045408; 0.1210501811455894;
   0.4771903799042804]; [0.3401847940871078; 0.0327794682164426;
   0.594256269480007]; [0.1338521522120095; 0.032485281564823;
   0.8011772846583444]; [0.021969470156756; 0.174979342183939;
   0.628071845475366]; [0.4104307392189654; 0.4104307392189654;
   0.1654860256196111]; [0.0061380088247907; 0.0061380088247907;
   0.9429887673452049]; [0.1210501811455894; 0.1210501811455894;
   0.4771903799042804]; [0.0327794682164426; 0.0327794682164426;
   0.594256269480007]; [0.032485281564823; 0.032485281564823;
   0.8011772846583444]; [0.174979342183939; 0.174979342183939;
   0.628071845475366]; [0.0136524959424581; 0.1654860256196111;
   0.4104307392189654]; [0.0447352150052138; 0.9429887673452049;
   0.0061380088247907]; [0.2807092578045408; 0.4771903799042804;
   0.1210501811455894]; [0.3401847940871078; 0.594256269480007;
   0.0327794682164426]; [0.1338521522120095; 0.8011772846583444;
   0.032485281564823]; [0.021969470156756; 0.628071845475366;
   0.174979342183939]; [0.4104307392189654; 0.1654860256196111;
   0.4104307392189654]; [0.0061380088247907; 0.9429887673452049;
   0.0061380088247907]; [0.1210501811455894; 0.4771903799042804;
   0.1210501811455894]; [0.0327794682164426; 0.594256269480007;
   0.0327794682164426]; [0.032485281564823; 0.8011772846583444;
   0.032485281564823]; [0.174979342183939; 0.628071845475366;
   0.174979342183939]; [0.1654860256196111; 0.4104307392189654;
   0.4104307392189654]; [0.9429887673452049; 0.0061380088247907;
   0.0061380088247907]; [0.4771903799042804; 0.1210501811455894;
   0.1210501811455894]; [0.594256269480007; 0.0327794682164426;
   0.0327794682164426]; [0.8011772846583444; 0.032485281564823;
   0.032485281564823]; [0.628071845475366; 0.174979342183939;
   0.174979342183939]]%Q.

(* gaussutil.py:648-675 *)
Definition gauss_tet_10_wts : list Q :=
  [0.0473997735560207; 0.0269370599922687; 0.0098691597167934;
   0.0269370599922687; 0.0098691597167934; 0.0269370599922687;
   0.0098691597167934; 0.0269370599922687; 0.0098691597167934;
   0.0113938812201952; 0.0003619443443393; 0.0257397319804561;
   0.0101358716797558; 0.0065761472770359; 0.012907035798862;
   0.0113938812201952; 0.0003619443443393; 0.0257397319804561;
   0.0101358716797558; 0.0065761472770359; 0.012907035798862;
   0.0113938812201952; 0.0003619443443393; 0.0257397319804561;
   0.0101358716797558; 0.0065761472770359; 0.012907035798862;
   0.0113938812201952; 0.0003619443443393; 0.0257397319804561;
   0.0101358716797558; 0.0065761472770359; 0.012907035798862;
   0.0113938812201952; 0.0003619443443393; 0.0257397319804561;
   0.0101358716797558; 0.0065761472770359; 0.012907035798862;
   0.0113938812201952; 0.0003619443443393; 0.0257397319804561;
   0.0101358716797558; 0.0065761472770359; 0.012907035798862;
   0.0113938812201952; 0.0003619443443393; 0.0257397319804561;
   0.0101358716797558; 0.0065761472770359; 0.012907035798862;
   0.0113938812201952; 0.0003619443443393; 0.0257397319804561;
   0.0101358716797558; 0.0065761472770359; 0.012907035798862;
   0.0113938812201952; 0.0003619443443393; 0.0257397319804561;
   0.0101358716797558; 0.0065761472770359; 0.012907035798862;
   0.0113938812201952; 0.0003619443443393; 0.0257397319804561;
   0.0101358716797558; 0.0065761472770359; 0.012907035798862;
   0.0113938812201952; 0.0003619443443393; 0.0257397319804561;
   0.0101358716797558; 0.0065761472770359; 0.012907035798862;
   0.0113938812201952; 0.0003619443443393; 0.0257397319804561;
   0.0101358716797558; 0.0065761472770359; 0.012907035798862]%Q.

(* dispatch of gauss_tet, gaussutil.py:195-679 *)
Definition gauss_tet_tab (k : Z) : option (list (list Q) * list Q) :=
  match k with
  | 1%Z => Some (gauss_tet_1_pts, gauss_tet_1_wts)
  | 2%Z => Some (gauss_tet_2_pts, gauss_tet_2_wts)
  | 3%Z => Some (gauss_tet_3_pts, gauss_tet_3_wts)
  | 4%Z | 5%Z => Some (gauss_tet_4_5_pts, gauss_tet_4_5_wts)
  | 6%Z => Some (gauss_tet_6_pts, gauss_tet_6_wts)
  | 7%Z => Some (gauss_tet_7_pts, gauss_tet_7_wts)
  | 8%Z => Some (gauss_tet_8_pts, gauss_tet_8_wts)
  | 9%Z => Some (gauss_tet_9_pts, gauss_tet_9_wts)
  | 10%Z => Some (gauss_tet_10_pts, gauss_tet_10_wts)
  | _ => None
  end.

