__pycache__/
*.vo
*.vok
*.vos
*.glob
.*.aux
Makefile*
.*.d
.lia.cache
.nia.cache
