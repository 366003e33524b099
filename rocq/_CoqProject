-Q theories Verif
theories/Words.v
theories/WordsProofs.v
theories/BitsModel.v
theories/BitsSpec.v
theories/BitsProofs.v
theories/BitsProofs2.v
theories/BitsProofs3.v
theories/BitsProps.v
theories/CoreModel.v
theories/CoreSpec.v
theories/CoreProofs.v
theories/CoreProps.v
theories/UtfModel.v
theories/UtfSpec.v
theories/UtfProofs.v
theories/UtfProofs2.v
theories/UtfProofs3.v
theories/UtfProps.v
theories/HashModel.v
theories/HashSpec.v
theories/HashProofs.v
theories/HashProofs2.v
theories/HashProps.v
theories/TrimModel.v
theories/TrimSpec.v
theories/TrimProofs.v
theories/TrimProps.v
theories/PcastModel.v
theories/PcastSpec.v
theories/PcastProofs.v
theories/PcastProofs2.v
theories/PcastProps.v
theories/UuidModel.v
theories/UuidSpec.v
theories/UuidProofs.v
theories/UuidProofs2.v
theories/UuidProofs3.v
theories/UuidProps.v
theories/TptrModel.v
theories/TptrSpec.v
theories/TptrProofs.v
theories/TptrProps.v
theories/HalfModel.v
theories/HalfSpec.v
theories/HalfProofs.v
theories/HalfProps.v
theories/GuardModel.v
theories/GuardSpec.v
theories/GuardProofs.v
theories/GuardProps.v
theories/SpanModel.v
theories/SpanSpec.v
theories/SpanProofs.v
theories/SpanProps.v
theories/AccumModel.v
theories/AccumSpec.v
theories/AccumProofs.v
theories/AccumProps.v
theories/EarrModel.v
theories/EarrSpec.v
theories/EarrProofs.v
theories/EarrProps.v
theories/BlobModel.v
theories/BlobSpec.v
theories/BlobProofs.v
theories/BlobProps.v
theories/FstrModel.v
theories/FstrSpec.v
theories/FstrProofs.v
theories/FstrProps.v
theories/SparamModel.v
theories/SparamSpec.v
theories/SparamProofs.v
theories/SparamProps.v
theories/TlistModel.v
theories/TlistSpec.v
theories/TlistProofs.v
theories/TlistProps.v
theories/SpinModel.v
theories/SpinSpec.v
theories/SpinProofs.v
theories/SpinProps.v
theories/BatchModel.v
theories/BatchSpec.v
theories/BatchProofs.v
theories/BatchProps.v
theories/PoolModel.v
theories/PoolSpec.v
theories/PoolProofs.v
theories/PoolProofs2.v
theories/PoolProofs3.v
theories/PoolProofs4.v
theories/PoolProps.v
theories/PoolProofs5.v
theories/PoolProps2.v
theories/PrintModel.v
theories/PrintSpec.v
theories/PrintProofs.v
theories/PrintProps.v
theories/MatModel.v
theories/MatSpec.v
theories/MatProofs.v
theories/MatProofs2.v
theories/MatProps.v
theories/VecModel.v
theories/VecSpec.v
theories/VecProofs.v
theories/VecProps.v
theories/QuatModel.v
theories/QuatSpec.v
theories/QuatProofs.v
theories/QuatProofs2.v
theories/QuatProps.v
theories/XformModel.v
theories/XformSpec.v
theories/XformProofs.v
theories/XformProps.v
theories/GeomModel.v
theories/GeomSpec.v
theories/GeomProofs.v
theories/GeomProofs2.v
theories/GeomProofs3.v
theories/GeomProofs4.v
theories/GeomProofs5.v
theories/GeomProps.v
theories/GeomProps2.v
theories/UniModel.v
theories/UniSpec.v
theories/UniTables.v
theories/UniData.v
theories/UniProofs.v
theories/UniProofs2.v
theories/UniProps.v
theories/MathModel.v
theories/MathSpec.v
theories/MathProofs.v
theories/MathProps.v
theories/FpModel.v
theories/FpProofs.v
theories/FpProofs2.v
theories/FpProps.v
theories/SqrtModel.v
theories/SqrtProofs.v
theories/SqrtProofs2.v
theories/SqrtProofs3.v
theories/SqrtProofs4.v
theories/SqrtProps.v
theories/ConstTables.v
theories/ConstModel.v
theories/ConstSpec.v
theories/ConstProofs.v
theories/ConstProofs2.v
theories/ConstProps.v
theories/TrigModel.v
theories/TrigSpec.v
theories/TrigProofs.v
theories/TrigProofs2.v
theories/TrigProofs3.v
theories/TrigProofs4.v
theories/TrigProofs5.v
theories/TrigProofs6.v
theories/TrigProofs7.v
theories/TrigProofs8.v
theories/TrigProps.v
theories/PuvModel.v
theories/PuvSpec.v
theories/PuvProofs.v
theories/PuvProofs2.v
theories/PuvProofs3.v
theories/PuvProofs4.v
theories/PuvProofs5.v
theories/PuvProofs6.v
theories/PuvProofs7.v
theories/PuvProps.v
theories/TriModel.v
theories/TriSpec.v
theories/TriProofs.v
theories/TriProofs2.v
theories/TriProofs3.v
theories/TriProofs4.v
theories/TriProps.v
theories/ArcModel.v
theories/ArcSpec.v
theories/ArcProofs.v
theories/ArcProofs2.v
theories/ArcProofs3.v
theories/ArcProofs4.v
theories/ArcProofs5.v
theories/ArcProofs6.v
theories/ArcProps.v
theories/ArcProofs7.v
theories/ArcProofs8.v
theories/ArcProofs9.v
theories/ArcProofs10.v
theories/ArcProps2.v
theories/FviewModel.v
theories/FviewSpec.v
theories/FviewProofs.v
theories/FviewProps.v
theories/MonModel.v
theories/MonAtomModel.v
theories/MonSpec.v
theories/MonProofs0.v
theories/MonProofs.v
theories/MonProps.v
theories/MonAtomProofs.v
theories/MonAtomProps.v
theories/TnameModel.v
theories/TnameSpec.v
theories/TnameProofs.v
theories/TnameProofs2.v
theories/TnameProofs3.v
theories/TnameProofs4.v
theories/TnameProps.v
theories/StypeModel.v
theories/StypeSpec.v
theories/StypeProofs.v
theories/StypeProofs2.v
theories/StypeProps.v
theories/MetaModel.v
theories/MetaSpec.v
theories/MetaProofs.v
theories/MetaProofs2.v
theories/MetaProps.v
theories/SeqModel.v
theories/SeqSpec.v
theories/SeqProofs.v
theories/SeqProps.v
theories/CpairModel.v
theories/CpairSpec.v
theories/CpairProofs.v
theories/CpairProofs2.v
theories/CpairProps.v
theories/VconModel.v
theories/VconSpec.v
theories/VconProofs.v
theories/VconProps.v
theories/VintModel.v
theories/VintSpec.v
theories/VintProofs.v
theories/VintProps.v
theories/VintProofs2.v
theories/VintProps2.v
theories/VintProofs3.v
theories/VintProps3.v
theories/VintProps4.v
theories/VfltModel.v
theories/VfltSpec.v
theories/VfltProofs.v
theories/VfltProofs2.v
theories/VfltProofs3.v
theories/VfltProps.v
theories/CtrModel.v
theories/CtrSpec.v
theories/CtrProofs.v
theories/CtrProofs2.v
theories/CtrProofs3.v
theories/CtrProofs4.v
theories/CtrProofs5.v
theories/CtrProofs6.v
theories/CtrProps.v
theories/CtrProps2.v
theories/XfltModel.v
theories/XfltSpec.v
theories/XfltProofs.v
theories/XfltProofs2.v
theories/XfltProofs3.v
theories/XfltProps.v
theories/BfltModel.v
theories/BfltSpec.v
theories/BfltProofs.v
theories/BfltProofs2.v
theories/BfltProofs3.v
theories/BfltProps.v
theories/LineModel.v
theories/LineSpec.v
theories/LineProps.v
theories/MoveModel.v
theories/MoveSpec.v
theories/MoveProps.v
theories/HopModel.v
theories/HopSpec.v
theories/HopProofs.v
theories/HopProofs2.v
theories/HopProofs3.v
theories/HopProps.v
theories/VolModel.v
theories/VolSpec.v
theories/VolProofs.v
theories/VolProps.v
theories/QuadModel.v
theories/QuadSpec.v
theories/QuadProofs.v
theories/QuadProofs2.v
theories/QuadProps.v
theories/SatProofs.v
theories/SatProofs2.v
theories/SatProps.v
theories/TaskModel.v
theories/TaskSpec.v
theories/TaskProofs.v
theories/TaskProps.v
theories/IterModel.v
theories/IterProps.v
theories/WrapModel.v
theories/WrapProps.v
theories/PlanarModel.v
theories/PlanarProps.v
theories/MacroModel.v
theories/MacroProps.v
theories/VaccModel.v
theories/VaccProps.v
theories/UcharModel.v
theories/UcharProps.v
theories/FinModel.v
theories/FinProps.v
theories/SegModel.v
theories/SegProps.v
theories/OeqModel.v
theories/OeqProps.v
theories/AeqModel.v
theories/AeqProps.v
theories/OcvModel.v
theories/OcvProps.v
theories/VmmModel.v
theories/VmmProps.v
theories/TcoModel.v
theories/TcoProps.v
theories/HulModel.v
theories/HulProps.v
theories/PtrModel.v
theories/PtrProps.v
