-Q theories Verif
theories/Base.v
theories/KeyModel.v
theories/KeySpec.v
theories/KeyProofs.v
theories/KeyProps.v
theories/HeapModel.v
theories/HeapProofs.v
theories/HeapSpec.v
theories/HeapExec.v
theories/HeapHistory.v
theories/HeapProps.v
theories/ListModel.v
theories/ListSpec.v
theories/ListProofs.v
theories/ListProps.v
theories/FifoModel.v
theories/FifoSpec.v
theories/FifoProofs.v
theories/FifoProps.v
theories/BresModel.v
theories/BresProofs.v
theories/BresProps.v
theories/AngleModel.v
theories/AngleSpec.v
theories/AngleProofs.v
theories/FootprintProofs.v
theories/AngleProps.v
theories/MdpModel.v
theories/MdpSpec.v
theories/MdpProofs.v
theories/MdpProps.v
theories/BfsModel.v
theories/BfsSpec.v
theories/BfsProofs.v
theories/BfsProps.v
theories/NavModel.v
theories/NavSpec.v
theories/NavProofs.v
theories/NavProofs2.v
theories/NavProps.v
theories/AraModel.v
theories/AraSpec.v
theories/AraProofs.v
theories/AraProofs2.v
theories/AraPath.v
theories/AraProofs3.v
theories/AraProofs4.v
theories/AraProofs5.v
theories/AraProofs6.v
theories/AraProofs7.v
theories/AraProofs8.v
theories/AraProps.v
theories/AraProps2.v
theories/BucketModel.v
theories/BucketSpec.v
theories/BucketProofs.v
theories/BucketProps.v
theories/SlidingModel.v
theories/SlidingSpec.v
theories/SlidingProofs.v
theories/SlidingProps.v
theories/DistModel.v
theories/DistSpec.v
theories/DistProofs.v
theories/DistProps.v
theories/GridModel.v
theories/GridSpec.v
theories/GridProofs.v
theories/GridProofs2.v
theories/GridProofs3.v
theories/GridProps.v
theories/LatModel.v
theories/LatSpec.v
theories/LatProofs.v
theories/LatProofs2.v
theories/LatProofs3.v
theories/LatProofs4.v
theories/LatProofs5.v
theories/LatProps.v
theories/AdjModel.v
theories/AdjSpec.v
theories/AdjProofs.v
theories/AraProofs9.v
theories/AraProps3.v
theories/AdjProps.v
theories/MhaModel.v
theories/MhaSpec.v
theories/MhaProofs.v
theories/MhaProofs2.v
theories/MhaProps.v
theories/AdModel.v
theories/AdAbs.v
theories/AdProofs.v
theories/AdProofs2.v
theories/AdSpec.v
theories/AdProofs3.v
theories/AdPath.v
theories/AdProofs4.v
theories/AdProofs5.v
theories/AdProofs6.v
theories/AdProofs7.v
theories/AdProofs8.v
theories/AdProofs9.v
theories/AdProps.v
theories/AdProps2.v
theories/GridSlidingModel.v
theories/GridSlidingProofs.v
theories/GridSlidingProofs2.v
theories/GridSlidingProps.v
theories/LazyModel.v
theories/LazyPq.v
theories/LazySpec.v
theories/LazyProofs.v
theories/LazyProofs2.v
theories/LazyProofs3.v
theories/LazyProofs4.v
theories/LazyProofs5.v
theories/LazyProps.v
theories/MlevModel.v
theories/MlevSpec.v
theories/MlevProofs.v
theories/MlevProofs2.v
theories/MlevProofs3.v
theories/MlevProps.v
theories/AnaModel.v
theories/AnaSpec.v
theories/AnaProofs.v
theories/AnaProofs2.v
theories/AnaProofs3.v
theories/AnaProofs4.v
theories/AnaProofs5.v
theories/AnaProofs6.v
theories/AnaProps.v
theories/EvalModel.v
theories/EvalSpec.v
theories/EvalProofs.v
theories/EvalProofs2.v
theories/EvalProofs3.v
theories/EvalProofs4.v
theories/EvalProofs5.v
theories/EvalProps.v
theories/ViModel.v
theories/ViSpec.v
theories/ViProofs.v
theories/ViProofs2.v
theories/ViProofs3.v
theories/ViProofs4.v
theories/ViProofs5.v
theories/ViProofs6.v
theories/ViProps.v
theories/UuModel.v
theories/UuSpec.v
theories/UuProofs.v
theories/UuProofs2.v
theories/UuProps.v
theories/RarmModel.v
theories/RarmSpec.v
theories/RarmProofs.v
theories/RarmProofs2.v
theories/RarmProofs3.v
theories/RarmProofs4.v
theories/RarmProps.v
