.nra.cache
.lia.cache
